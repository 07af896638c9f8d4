(** Proofs about bone selection and [PreSerialize]. *)
From Coq Require Import String List ZArith Arith Lia Bool.
From Verif.Model Require Import Num Vec Matrix Mqo MqoDoc.
From Verif.Spec Require Import BoneSpec.
From Verif.Proofs Require Import MorphProofs.
Import ListNotations.

Section Bones.
Context {T : Type}.
Implicit Types (bones : list (bone T)).

Lemma nmem_In i l : nmem i l = true <-> In i l.
Proof.
  unfold nmem. rewrite existsb_exists. split.
  - intros [x [Hx E]]. apply Nat.eqb_eq in E. subst; exact Hx.
  - intro H. exists i. split; [exact H | apply Nat.eqb_refl].
Qed.

Lemma by_id_child bones b i p : nth_error bones i = Some b -> (0 < bParent b)%Z ->
  bone_by_id bones (bParent b) = Some p -> child_of bones i p.
Proof.
  intros E L Eb. destruct (last_index_some _ _ _ Eb) as [[pb [Ep Q]] _]. apply Z.eqb_eq in Q.
  exists b, pb. auto.
Qed.
Lemma child_by_id bones i p : NoDup (map (@bID T) bones) -> child_of bones i p ->
  exists b, nth_error bones i = Some b /\ (0 < bParent b)%Z /\ bone_by_id bones (bParent b) = Some p.
Proof.
  intros ND [b [pb [Ei [Ep [L E]]]]]. exists b. split; [exact Ei|]. split; [exact L|].
  unfold bone_by_id. destruct (last_index _ bones) as [q|] eqn:Eq.
  - destruct (last_index_some _ _ _ Eq) as [[qb [Enq Q]] _]. apply Z.eqb_eq in Q. f_equal.
    apply (proj1 (NoDup_nth_error _) ND).
    + rewrite map_length. apply nth_error_Some. congruence.
    + rewrite !nth_error_map, Enq, Ep. cbn. congruence.
  - exfalso. assert (X := proj1 (last_index_none _ _) Eq pb (nth_error_In _ _ Ep)). cbn in X.
    rewrite E, Z.eqb_refl in X. discriminate.
Qed.

Lemma step_sound bones base sel i : NoDup sel -> (forall j, In j sel -> descends bones base j) ->
  NoDup (select_step bones sel i) /\ (forall j, In j (select_step bones sel i) -> descends bones base j) /\
  incl sel (select_step bones sel i).
Proof.
  intros ND D. unfold select_step. destruct (nth_error bones i) as [b|] eqn:Eb; [|auto using incl_refl].
  destruct (Z.ltb_spec 0 (bParent b)) as [L|]; cbn [andb]; [|auto using incl_refl].
  destruct (bone_by_id bones (bParent b)) as [p|] eqn:Ep; cbn [andb]; [|auto using incl_refl].
  destruct (nmem p sel) eqn:Mp; cbn [andb]; [|auto using incl_refl].
  destruct (nmem i sel) eqn:Mi; cbn [negb]; [auto using incl_refl|].
  assert (Ni : ~ In i sel) by (intro H; apply nmem_In in H; congruence).
  split; [|split; [|apply incl_appl, incl_refl]].
  - apply NoDup_rev in ND. assert (X : NoDup (i :: rev sel)) by (constructor; [rewrite <- in_rev; exact Ni | exact ND]).
    apply NoDup_rev in X. cbn in X. rewrite rev_involutive in X. exact X.
  - intros j Hj. apply in_app_or in Hj. destruct Hj as [Hj|[<-|[]]]; [auto|].
    apply (desc_step bones base i p); [eapply by_id_child; eauto|]. apply D. apply nmem_In; exact Mp.
Qed.
Lemma fold_sound bones base is_ : forall sel, NoDup sel -> (forall j, In j sel -> descends bones base j) ->
  let r := fold_left (select_step bones) is_ sel in
  NoDup r /\ (forall j, In j r -> descends bones base j) /\ incl sel r.
Proof.
  induction is_ as [|i r IH]; intros sel ND D; [cbn; auto using incl_refl|]. cbn.
  destruct (step_sound bones base sel i ND D) as [A [B C]].
  destruct (IH _ A B) as [A2 [B2 C2]]. split; [exact A2|]. split; [exact B2|]. eapply incl_tran; eauto.
Qed.
Lemma select_sound bones base : let r := select_bones bones base in
  NoDup r /\ In base r /\ forall j, In j r -> descends bones base j.
Proof.
  destruct (fold_sound bones base (seq 0 (length bones)) [base]) as [A [B C]].
  - constructor; [intros [] | constructor].
  - intros j [<-|[]]. apply desc_self.
  - split; [exact A|]. split; [apply C; left; reflexivity | exact B].
Qed.

Lemma select_complete bones base : NoDup (map (@bID T) bones) ->
  (forall i p, child_of bones i p -> p < i \/ p = base) ->
  forall j, descends bones base j -> In j (select_bones bones base).
Proof.
  intros ND Ord.
  assert (Main : forall n, n <= length bones ->
    let r := fold_left (select_step bones) (seq 0 n) [base] in
    In base r /\ forall j, j < n -> descends bones base j -> In j r).
  { induction n as [|n IH]; intro L; cbn zeta.
    - split; [left; reflexivity | intros; lia].
    - rewrite seq_S, fold_left_app. cbn [fold_left plus].
      destruct (IH ltac:(lia)) as [Hb Hj]. set (r := fold_left _ _ _) in *.
      assert (Inc : incl r (select_step bones r n)).
      { unfold select_step. destruct (nth_error bones n); [|apply incl_refl].
        destruct (_ && _); [apply incl_appl, incl_refl | apply incl_refl]. }
      split; [apply Inc; exact Hb|]. intros j Lj D. destruct (Nat.eq_dec j n) as [->|Ne]; [|apply Inc, Hj; [lia | exact D]].
      destruct D as [|i p Ch D']; [apply Inc; exact Hb|].
      assert (Hp : In p r).
      { destruct (Ord i p Ch) as [Lp| ->]; [apply Hj; [lia | exact D'] | exact Hb]. }
      destruct (child_by_id bones i p ND Ch) as [b [Eb [Lb Ep]]].
      unfold select_step. rewrite Eb, Ep. apply Z.ltb_lt in Lb. rewrite Lb. cbn [andb].
      rewrite (proj2 (nmem_In p r) Hp). cbn [andb].
      destruct (nmem i r) eqn:Mi; cbn [negb]; [apply nmem_In; exact Mi | apply in_or_app; right; left; reflexivity]. }
  intros j D. destruct (Main (length bones) (le_n _)) as [Hb Hj].
  destruct D as [|i p Ch D']; [exact Hb|]. apply Hj; [|eapply desc_step; eauto].
  destruct Ch as [b [pb [Ei _]]]. apply nth_error_Some. congruence.
Qed.

(** ** PreSerialize *)
Definition saved_ids (weighted : list Z) (os : list (object T)) : list Z := pre_serialize weighted os [].
Lemma pre_serialize_app w os obj : pre_serialize w os obj = obj ++ saved_ids w os.
Proof. reflexivity. Qed.
Lemma pre_serialize_twice w os obj :
  pre_serialize w os (pre_serialize w os obj) = obj ++ saved_ids w os ++ saved_ids w os.
Proof. rewrite !pre_serialize_app, app_assoc. reflexivity. Qed.
Lemma pre_serialize_idem w os obj :
  pre_serialize w os (pre_serialize w os obj) = pre_serialize w os obj <-> saved_ids w os = [].
Proof.
  rewrite pre_serialize_twice, pre_serialize_app. split.
  - intro E. apply app_inv_head in E. rewrite <- (app_nil_r (saved_ids w os)) in E at 3. apply app_inv_head in E. exact E.
  - intros ->. reflexivity.
Qed.
Lemma saved_ids_In w os id : In id (saved_ids w os) <->
  In id w /\ exists i o, nth_error os i = Some o /\ id = if (oUID o <=? 0)%Z then (Z.of_nat i + 1)%Z else oUID o.
Proof.
  unfold saved_ids, pre_serialize. cbn [app]. rewrite filter_In, in_map_iff, existsb_exists.
  assert (C : forall k (l : list (object T)) i o, In (i, o) (combine (seq k (length l)) l) <-> k <= i /\ nth_error l (i - k) = Some o).
  { intros k l; revert k; induction l as [|x l IH]; intros k i o; cbn [length seq combine In].
    - split; [intros [] |]. intros [_ E]. destruct (i - k); discriminate.
    - rewrite IH. split.
      + intros [E|[L E]]; [injection E as <- <-; rewrite Nat.sub_diag; auto|].
        split; [lia|]. replace (i - k) with (S (i - S k)) by lia. exact E.
      + intros [L E]. destruct (Nat.eq_dec i k) as [->|Ne].
        * rewrite Nat.sub_diag in E. injection E as ->. left; reflexivity.
        * right. split; [lia|]. replace (i - k) with (S (i - S k)) in E by lia. exact E. }
  split.
  - intros [[[i o] [E Hin]] [x [Hx Ex]]]. apply Z.eqb_eq in Ex. subst x. split; [exact Hx|].
    apply C in Hin. rewrite Nat.sub_0_r in Hin. exists i, o. split; [exact (proj2 Hin) | symmetry; exact E].
  - intros [Hw [i [o [Ei E]]]]. split; [|exists id; split; [exact Hw | apply Z.eqb_refl]].
    exists (i, o). split; [symmetry; exact E|]. apply C. rewrite Nat.sub_0_r. split; [lia | exact Ei].
Qed.
End Bones.
