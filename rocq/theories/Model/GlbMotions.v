(** Several motions in one glTF document: [AddAnimationTpGlb] (converter/glbanim.go:253-262) and its loop in cmd/modelconv/main.go:136-144.
    Of the document the accessors and the animations are kept; the order of the channels in the maps of a motion is that of its lists. *)
From Coq Require Import String List ZArith Reals.
From Verif.Model Require Import Num NumR Vec GlbAnim.
Import ListNotations.

(** mmd/vmd_parser.go:19-28, grouped by [GetBoneChannels] and [GetMorphChannels] (72-108) *)
Record motion := mkMotion { moName : string; moBones : list bchan; moMorphs : list mchan }.
(** gltf.Document, the fields that change. *)
Record gdoc := mkGDoc { gdAccs : list adata; gdAnims : list (string * aanim) }.
(** glbanim.go:253-262; [None] is an index panic of the table of weights. *)
Definition add_animation (bones : list (Z * abone)) (nodes : list (option (list string))) (g : gdoc) (m : motion) : option gdoc :=
  match add_morph_channels nodes (moMorphs m) (add_bone_channels bones (moBones m) (mkAS (gdAccs g) (mkAA [] []))) with
  | None => None
  | Some s => Some (mkGDoc (asAccs s) (match aaChannels (asAnim s) with [] => gdAnims g | _ => gdAnims g ++ [(moName m, asAnim s)] end))
  end.
(** main.go:136-144, for the motions among the inputs (which those are: Model/CliRun.v) *)
Fixpoint add_animations (bones : list (Z * abone)) (nodes : list (option (list string))) (ms : list motion) (g : gdoc) : option gdoc :=
  match ms with
  | [] => Some g
  | m :: r => match add_animation bones nodes g m with Some g' => add_animations bones nodes r g' | None => None end
  end.
