(** C35: PMX bone weights become percentages. *)
From Coq Require Import String List ZArith Bool Lia Permutation.
From Verif.Model Require Import Num Vec Matrix Mqo MqoDoc Mmd2Mqo.
From Verif Require Import Spec.MmdConvSpec Proofs.Mmd2MqoProofs Props.C33.
Import ListNotations.
Local Open Scope Z_scope.

(** The weights a bone has for the vertices of an object are those of the PMX vertices in
    percent, in whatever order the map is iterated: for the objects of materials always, for
    morph bases if no bone is listed twice.  Morph targets have none. *)
Theorem C35_weights_partial : forall (T : Type) (N : Num T) (hundred facet : T) (shuffle : vmap -> vmap),
  (forall m, Permutation (shuffle m) m) ->
  forall (p : pmodel T) os bw sets k o b ws, convert hundred facet shuffle p = Some (os, bw, sets) -> covers p ->
  nth_error os k = Some o -> zidx bw b = Some ws ->
  oUID o = Z.of_nat k + 1 /\
  (mesh o = false -> forall vid, stored ws (oUID o) vid = []) /\
  (mesh o = true -> exists src fsrc, shows p o src fsrc /\
     forall vid, match zidx src (vid - 1) with
                 | Some pv => exists v, zidx (pVerts p) pv = Some v /\
                     (prefix "M_" (oName o) = true \/ (length (weights_for v b) <= 1)%nat ->
                      stored ws (oUID o) vid = percent hundred (weights_for v b))
                 | None => stored ws (oUID o) vid = []
                 end).
Proof. exact (fun T N => @convert_weights T N). Qed.
Print Assumptions C35_weights_partial.

Example C35_example :
  option_map (fun r => snd (fst r)) (convert 100 60 (fun m => m) ex_model) =
  Some [[(1, [(1, 100); (2, 200)]); (2, [(2, 200)]); (4, [(2, 400)])];
        [(1, [(2, 300); (3, 300)]); (2, [(1, 300); (2, 300)]); (4, [(1, 700); (3, 200)])]].
Proof. vm_compute. reflexivity. Qed.

(** The full claim: also in morph bases. *)
Definition C35_full : Prop := forall (p : pmodel Z) os bw sets o b ws,
  proper p -> convert 100 60 (fun m => m) p = Some (os, bw, sets) -> In o os -> mesh o = true -> zidx bw b = Some ws ->
  forall src fsrc k pv v, shows p o src fsrc -> (forall fi, (fi < length (pFaces p))%nat -> In fi fsrc) ->
    zidx src k = Some pv -> zidx (pVerts p) pv = Some v -> stored ws (oUID o) (k + 1) = percent 100 (weights_for v b).

(** Vertex 0 lists bone 0 twice, with weights 1 and 2; the morph base gets 102 instead of 300. *)
Definition twice_model : pmodel Z :=
  mkPModel [pv 0 0 1 [0; 0] [1; 2]; pv 4 0 2 [] []; pv 0 4 3 [] []] [[0; 1; 2]] [mkPMat "skin" 3]
           [mkPMorph "smile" [(2, mkV3 1 0 2)] []] 1.
Definition twice_result := Eval vm_compute in
  match convert 100 60 (fun m => m) twice_model with Some r => r | None => ([], [], []) end.
Theorem C35_twice_refuted : ~ C35_full.
Proof.
  intros H.
  specialize (H twice_model (fst (fst twice_result)) (snd (fst twice_result)) (snd twice_result)
                (nth 0 (fst (fst twice_result)) (new_object 60 "" [] [])) 0 (nth 0 (snd (fst twice_result)) [])
                ltac:(repeat split; repeat constructor; cbn; lia) eq_refl (or_introl eq_refl) eq_refl eq_refl
                [0; 1; 2] [0%nat] 0 0 (pv 0 0 1 [0; 0] [1; 2])).
  assert (C : stored (nth 0 (snd (fst twice_result)) []) (oUID (nth 0 (fst (fst twice_result)) (new_object 60 "" [] []))) 1 =
              percent 100 (weights_for (pv 0 0 1 [0; 0] [1; 2]) 0)).
  { apply H; try reflexivity.
    - split; [repeat constructor; cbn; intuition lia|]. split; [reflexivity|]. repeat constructor.
    - intros fi Hfi. cbn in Hfi. destruct fi; [left; reflexivity|lia]. }
  vm_compute in C. discriminate.
Qed.
Print Assumptions C35_twice_refuted.
