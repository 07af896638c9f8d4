(** C12: cloning an object.  Independence holds; equality in every face attribute is false:
    face ids and normals are dropped. *)
From Coq Require Import List ZArith Arith.
From Verif.Model Require Import Num Vec MqoClone.
From Verif.Spec Require Import HeapSpec.
From Verif.Proofs Require Import CloneProofs.
Import ListNotations.

(** Cloning a readable object succeeds, changes nothing that existed, and the clone reads
    like the original except that its faces have uid 0 and no normals. *)
Theorem C12_clone_contents (T : Type) (h : heap T) (o : hobj) vs fs :
  view h o = Some (vs, fs) ->
  exists h' o', clone h o = Some (h', o') /\ view h' o = Some (vs, fs) /\
    view h' o' = Some (vs, map stripped fs) /\
    hPlain o' = hPlain o /\ hScale o' = hScale o /\ hRotation o' = hRotation o /\
    hTranslation o' = hTranslation o /\ hColor o' = hColor o /\ hVertexByUID o' = hVertexByUID o /\
    (forall a c, nth_error h a = Some c -> nth_error h' a = Some c).
Proof. exact (clone_view h o vs fs). Qed.
Print Assumptions C12_clone_contents.

(** After any interleaving of edits of both, an edit of one does not show in the other. *)
Theorem C12_independent (T : Type) (h : heap T) (o : hobj) h1 o' es h2 :
  wf h o -> clone h o = Some (h1, o') -> both_edits h1 o o' es = Some h2 ->
  (forall e h3, apply_edit h2 o e = Some h3 -> view h3 o' = view h2 o') /\
  (forall e h3, apply_edit h2 o' e = Some h3 -> view h3 o = view h2 o).
Proof. exact (clone_independent h o h1 o' es h2). Qed.
Print Assumptions C12_independent.

(** A triangle with normals and a face id. *)
Definition h0 : heap Z :=
  [CVec (mkV3 0 0 0)%Z; CVec (mkV3 1 0 0)%Z; CVec (mkV3 0 1 0)%Z; CVPtrs [Some 0; Some 1; Some 2];
   CInts [0; 1; 2]%Z; CUVs [mkV2 0 0; mkV2 1 0; mkV2 0 1]%Z; CVec (mkV3 0 0 1)%Z;
   CVPtrs [Some 6; None; Some 6]; CFace 9%Z 4 3%Z 5 7; CFPtrs [Some 8]].
Definition o0 : hobj := mkHObj 3 9 None None None None 0 [1%Z].
Theorem C12_full_copy_refuted : exists (h h' : heap Z) (o o' : hobj),
  wf h o /\ clone h o = Some (h', o') /\ view h' o' <> view h o /\
  (exists vs f fs f' fs', view h o = Some (vs, f :: fs) /\ view h' o' = Some (vs, f' :: fs') /\
     fvNormals f = [Some (mkV3 0 0 1); None; Some (mkV3 0 0 1)]%Z /\ fvNormals f' = [] /\ fvUID f <> fvUID f').
Proof.
  exists h0, (match clone h0 o0 with Some p => fst p | None => h0 end), o0,
         (match clone h0 o0 with Some p => snd p | None => o0 end).
  split.
  - split.
    + intros a Ha. cbn in Ha. do 10 (destruct a as [|a]; [eexists; split; [reflexivity|];
        cbn; repeat (constructor || (eexists; split; reflexivity) || (exists (CVec (mkV3 0 0 1)%Z); split; reflexivity) || (vm_compute; auto))|]).
      exfalso. do 10 apply Nat.succ_lt_mono in Ha. inversion Ha.
    + split; (split; [cbn; repeat constructor | eexists; split; reflexivity]).
  - split; [reflexivity|]. split; [vm_compute; discriminate|].
    do 5 eexists. split; [vm_compute; reflexivity|]. split; [vm_compute; reflexivity|].
    split; [reflexivity|]. split; [reflexivity|]. discriminate.
Qed.
Print Assumptions C12_full_copy_refuted.

(** Moving a vertex of the original and a corner of the clone. *)
Example C12_run :
  match clone h0 o0 with
  | Some (h1, o') =>
      match both_edits h1 o0 o' [(true, EMoveVertex 0 (mkV3 5 5 5)%Z); (false, ESetCorner 0 1 2%Z)] with
      | Some h2 => (option_map fst (view h2 o0), option_map (fun p => map fvVerts (snd p)) (view h2 o0),
                    option_map fst (view h2 o'), option_map (fun p => map fvVerts (snd p)) (view h2 o'))
      | None => (None, None, None, None)
      end
  | None => (None, None, None, None)
  end = (Some [mkV3 5 5 5; mkV3 1 0 0; mkV3 0 1 0], Some [[0; 1; 2]],
         Some [mkV3 0 0 0; mkV3 1 0 0; mkV3 0 1 0], Some [[0; 2; 2]])%Z.
Proof. vm_compute. reflexivity. Qed.
