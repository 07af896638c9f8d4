(** Materials between PMX models and MQO documents ([converter/mmd2mqo.go], [converter/mqo2mmd.go]).
    Faces, bones and vertex morphs of the same functions are in [Mmd2Mqo.v] and [Mqo2Mmd.v]. *)
From Coq Require Import String List ZArith Bool Arith.
From Verif.Model Require Import Num Vec Mqo MqoDoc.
Import ListNotations.
Local Open Scope Z_scope.
Local Open Scope list_scope.

Section Mats.
Context {T : Type} {N : Num T}.
(** The constant 1.4 of mmd2mqo.go:35 and 350. *)
Variable ambient : T.

(** mmd/mmd.go:60-77, without the English name and the memo, which no converter reads. *)
Record mmat := mkMMat {
  xmName : string; xmColor : vec4 T; xmSpecular : vec3 T; xmSpecularity : T; xmAmbient : vec3 T; xmFlags : Z;
  xmEdgeColor : vec4 T; xmEdge : T; xmTexture : Z; xmEnv : Z; xmEnvMode : Z; xmToonType : Z; xmToon : Z; xmCount : Z }.

(** [model.Textures[i]]; [None] is an index out of range. *)
Definition texture_at (texs : list string) (i : Z) : option string :=
  if i <? 0 then None else nth_error texs (Z.to_nat i).

(** converter/mmd2mqo.go:29-50; a new material is all zero *)
Definition from_mmat (texs : list string) (m : mmat) : option (material T) :=
  match (if 0 <=? xmTexture m then texture_at texs (xmTexture m) else Some EmptyString) with
  | None => None
  | Some t =>
      Some (mkMat (xmName m) 0 (xmColor m) none ambient nzero nzero (xmSpecularity m) t "" "" None
              (Z.testbit (xmFlags m) 0) 0
              (Some (mkEx2 "hlsl" "pmd" [("Edge"%string, PBool (nltb nzero (xmEdge m)))] [] [])))
  end.
(** converter/mmd2mqo.go:248-250, the loop over the materials *)
Fixpoint from_mmats (texs : list string) (ms : list mmat) : option (list (material T)) :=
  match ms with
  | [] => Some []
  | m :: r => match from_mmat texs m with
              | None => None
              | Some x => option_map (cons x) (from_mmats texs r)
              end
  end.

(** mmd/mmd.go:151-164 and 166-177: the parts of material morphs a converter reads. *)
Record mmorph := mkMM { moTarget : Z; moFlags : Z; moDiffuse : vec4 T; moSpecularity : T }.
Record mmorphs := mkMMs { moName : string; moMats : list mmorph }.

(** converter/mmd2mqo.go:346 *)
Definition hadamard4 (a b : vec4 T) : vec4 T :=
  mkV4 (nmul (qx a) (qx b)) (nmul (qy a) (qy b)) (nmul (qz a) (qz b)) (nmul (qw a) (qw b)).
(** converter/mmd2mqo.go:341-351: the copy of the material, changed *)
Definition morphed (name : string) (o : mmorph) (m : material T) : material T :=
  mkMat ("$MORPH:" ++ name ++ ":" ++ mtName m)%string (mtUID m)
    (if Z.land (moFlags o) 1 =? 1 then v4add (mtColor m) (moDiffuse o) else hadamard4 (mtColor m) (moDiffuse o))
    none ambient (mtEmission m) nzero (moSpecularity o)
    (mtTexture m) (mtBump m) (mtAlpha m) (mtEmissionColor m) (mtDouble m) (mtShader m) (mtEx2 m).
(** converter/mmd2mqo.go:338-340: the bound is the number of the materials so far, those of morphs with them *)
Definition add_morph (name : string) (ms : list (material T)) (o : mmorph) : list (material T) :=
  if moTarget o <? 0 then ms
  else match nth_error ms (Z.to_nat (moTarget o)) with
       | None => ms
       | Some m => ms ++ [morphed name o m]
       end.
(** converter/mmd2mqo.go:336-354 *)
Definition add_morphs (ms : list (material T)) (mos : list mmorphs) : list (material T) :=
  fold_left (fun ms mo => fold_left (add_morph (moName mo)) (moMats mo) ms) mos ms.
(** converter/mmd2mqo.go:248-250 and 336-354: [mq.Materials] in the end *)
Definition mqo_materials (texs : list string) (ms : list mmat) (mos : list mmorphs) : option (list (material T)) :=
  option_map (fun l => add_morphs l mos) (from_mmats texs ms).

(** converter/mqo2mmd.go:165-174; all else is zero *)
Definition to_mmat (m : material T) (faces texture : Z) : mmat :=
  let z3 := mkV3 nzero nzero nzero in let z4 := mkV4 nzero nzero nzero nzero in
  mkMMat (mtName m) (mtColor m) z3 (mtPower m) z3 0 z4 nzero texture 0 0 0 (-1) (faces * 3).
(** converter/mqo2mmd.go:117-122; materials come with the number of their faces (lines 54-116) *)
Fixpoint to_mmats (ms : list (material T * Z)) (texs : list string) : list mmat * list string :=
  match ms with
  | [] => ([], texs)
  | (m, n) :: r =>
      let (id, texs') := if String.eqb (mtTexture m) EmptyString then (-1, texs)
                         else (Z.of_nat (length texs), texs ++ [mtTexture m]) in
      let (l, t) := to_mmats r texs' in (to_mmat m n id :: l, t)
  end.
End Mats.
Arguments mmat : clear implicits.
Arguments mmorph : clear implicits.
Arguments mmorphs : clear implicits.
