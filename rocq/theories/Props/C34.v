(** C34: PMX vertex morphs only move their own vertices. *)
From Coq Require Import String List ZArith Bool Lia Permutation.
From Verif.Model Require Import Num Vec Matrix Mqo MqoDoc Mmd2Mqo.
From Verif Require Import Spec.MmdConvSpec Proofs.Mmd2MqoProofs Props.C33.
Import ListNotations.
Local Open Scope Z_scope.

(** A morph all of whose vertices are used by faces becomes a target object of a base object
    that shows every face with one of these vertices; exactly the listed vertices and texture
    coordinates move, by all their offsets, and the morph set names both objects. *)
Theorem C34_targets_partial : forall (T : Type) (N : Num T) (hundred facet : T) (shuffle : vmap -> vmap),
  (forall m, Permutation (shuffle m) m) ->
  forall (p : pmodel T) os bw sets mi m, convert hundred facet shuffle p = Some (os, bw, sets) -> covers p ->
  nth_error (pMorphs p) mi = Some m -> map fst (phVerts m) ++ map fst (phUVs m) <> [] ->
  (forall v, In v (map fst (phVerts m) ++ map fst (phUVs m)) ->
     exists fi, (fi < length (pFaces p))%nat /\ In v (nth fi (pFaces p) [])) ->
  exists pre base ts1 t ts2 post src fsrc,
    os = pre ++ base :: ts1 ++ t :: ts2 ++ post /\
    mesh base = true /\ Forall (fun o => mesh o = false) (ts1 ++ t :: ts2) /\
    shows p base src fsrc /\ morphed p m base t src /\
    (forall v fi, In v (map fst (phVerts m) ++ map fst (phUVs m)) ->
       (fi < length (pFaces p))%nat -> In v (nth fi (pFaces p) []) -> In fi fsrc) /\
    In (mkTL (oName base) (map oName (ts1 ++ t :: ts2))) sets.
Proof. exact (fun T N => @convert_morph T N). Qed.
Print Assumptions C34_targets_partial.

(** The model of C33 meets the hypotheses; its target moves vertex 1 and the texture coordinate
    of vertex 0. *)
Example C34_example :
  map fst (phVerts (nth 0 (pMorphs ex_model) (mkPMorph "" [] []))) = [5] /\
  option_map (fun r => map (fun o => (oName o, oDepth o, oVisible o, oVerts o, map fUVs (oFaces o))) (skipn 4 (fst (fst r))))
    (convert 100 60 (@rev _) ex_model) =
  Some [("smile"%string, 1, false, [mkV3 9 0 (-5); mkV3 10 9 (-8); mkV3 5 9 (-7)], [[mkV2 12 1; mkV2 9 9; mkV2 5 9]])].
Proof. vm_compute. split; reflexivity. Qed.

(** The full claim, for morphs that have at least one vertex that is used by a face. *)
Definition C34_full : Prop := forall (p : pmodel Z) os bw sets m,
  proper p -> convert 100 60 (fun m => m) p = Some (os, bw, sets) -> In m (pMorphs p) ->
  forall base t src fsrc k v, In base os -> In t os -> mesh base = true -> oName t = phName m -> shows p base src fsrc ->
    (forall fi, (fi < length (pFaces p))%nat -> In fi fsrc) ->
    zidx src k = Some v -> ~ In v (map fst (phVerts m)) -> zidx (oVerts t) k = zidx (oVerts base) k.

(** A morph that also names a vertex no face uses moves vertex 0 of its base object. *)
Definition unused_model : pmodel Z :=
  mkPModel [pv 0 0 1 [] []; pv 4 0 2 [] []; pv 0 4 3 [] []; pv 4 4 4 [] []] [[0; 1; 2]] [mkPMat "skin" 3]
           [mkPMorph "smile" [(2, mkV3 1 0 2); (3, mkV3 5 5 5)] []] 0.
Definition unused_result := Eval vm_compute in
  match convert 100 60 (fun m => m) unused_model with Some r => r | None => ([], [], []) end.
Theorem C34_unused_vertex_refuted : ~ C34_full.
Proof.
  intros H.
  specialize (H unused_model (fst (fst unused_result)) (snd (fst unused_result)) (snd unused_result)
                (mkPMorph "smile" [(2, mkV3 1 0 2); (3, mkV3 5 5 5)] [])
                ltac:(repeat split; repeat constructor; cbn; lia) eq_refl (or_introl eq_refl)
                (nth 0 (fst (fst unused_result)) (new_object 60 "" [] [])) (nth 1 (fst (fst unused_result)) (new_object 60 "" [] []))
                [0; 1; 2] [0%nat] 0 0).
  assert (C : zidx (oVerts (nth 1 (fst (fst unused_result)) (new_object 60 "" [] []))) 0 =
              zidx (oVerts (nth 0 (fst (fst unused_result)) (new_object 60 "" [] []))) 0).
  { apply H; try reflexivity.
    - left. reflexivity.
    - right. left. reflexivity.
    - split; [repeat constructor; cbn; intuition lia|]. split; [reflexivity|]. repeat constructor.
    - intros fi Hfi. cbn in Hfi. destruct fi; [left; reflexivity|lia].
    - cbn. intuition lia. }
  vm_compute in C. discriminate.
Qed.
Print Assumptions C34_unused_vertex_refuted.
