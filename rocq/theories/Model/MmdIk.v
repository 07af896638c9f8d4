(** The IK part of [convertBones] ([converter/mmd2mqo.go]); names, places and parents of the bones are in [Mqo2Mmd.v]. *)
From Coq Require Import String List ZArith Bool.
From Verif.Model Require Import Num Vec Mqo Mmd2Mqo Mqo2Mmd.
Import ListNotations.
Local Open Scope Z_scope.
Local Open Scope list_scope.

Section Ik.
Context {T : Type} {N : Num T}.
(** mmd/mmd.go:92-113: a bone with its IK; of the links only the bones are kept, loops and limits are read by no converter. *)
Record ikbone := mkIkB { ibBone : pbone T; ibTarget : Z; ibLinks : list Z }.
(** mqo/bone_plugin.go:177-183 *)
Record bone_ik := mkBIK { biChain : Z; biName : string; biTip : string }.

(** converter/mmd2mqo.go:81-84 *)
Definition tip_name (bs : list ikbone) (b : ikbone) : string :=
  let t := pbTail (ibBone b) in
  if (0 <? t) && (t <? Z.of_nat (length bs)) then
    match zidx bs t with Some x => pbName (ibBone x) | None => EmptyString end
  else EmptyString.
(** converter/mmd2mqo.go:85-89 *)
Definition ik_of (bs : list ikbone) (b : ikbone) : bone_ik :=
  mkBIK (Z.of_nat (length (ibLinks b)) + 1) (pbName (ibBone b)) (tip_name bs b).
(** converter/mmd2mqo.go:79-91, one round; the list has the IK of every bone, [None] is an index out of range *)
Definition ik_step (bs : list ikbone) (iks : option (list (option bone_ik))) (b : ikbone) : option (list (option bone_ik)) :=
  match iks with
  | None => None
  | Some l =>
      match ibLinks b with
      | [] => Some l
      | _ => match zidx l (ibTarget b) with
             | None => None
             | Some _ => Some (list_set l (Z.to_nat (ibTarget b)) (Some (ik_of bs b)))
             end
      end
  end.
(** converter/mmd2mqo.go:79-91 *)
Definition mqo_iks (bs : list ikbone) : option (list (option bone_ik)) :=
  fold_left (ik_step bs) bs (Some (map (fun _ => None) bs)).
End Ik.
Arguments ikbone : clear implicits.
