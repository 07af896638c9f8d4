(** Levelling all arms that match (C84). *)
From Coq Require Import String List ZArith Reals Lra Lia Bool.
From Verif.Model Require Import Num NumR Vec Matrix Euler Mqo MqoDoc MqoTransform.
From Verif.Spec Require Import GeomSpec BoneSpec TransformSpec.
From Verif.Proofs Require Import MatrixLemmas EulerProofs BoneProofs BoneTurnSums BoneTurnProofs LevelProofs.
Import ListNotations.
Local Open Scope R_scope.

(** The same bones at other places. *)
Definition same_tree (l l' : list (bone R)) : Prop :=
  Forall2 (fun b b' => bID b' = bID b /\ bName b' = bName b /\ bParent b' = bParent b) l l'.
Lemma same_tree_refl l : same_tree l l.
Proof. induction l; constructor; auto. Qed.
Lemma same_tree_trans l l' l'' : same_tree l l' -> same_tree l' l'' -> same_tree l l''.
Proof.
  intros F. revert l''. induction F as [|b b' l l' (A & B & C) _ IH]; intros l'' G; inversion G; subst; constructor; [|apply IH; assumption].
  match goal with H : _ /\ _ /\ _ |- _ => destruct H as (D & E & K) end. repeat split; congruence.
Qed.
Lemma same_tree_sym l l' : same_tree l l' -> same_tree l' l.
Proof. intros F. induction F as [|b b' l l' (A & B & C) _ IH]; constructor; auto. Qed.
Lemma same_tree_nth l l' : same_tree l l' -> forall i b, nth_error l i = Some b -> exists b', nth_error l' i = Some b' /\ bID b' = bID b /\ bName b' = bName b /\ bParent b' = bParent b.
Proof.
  intros F. induction F as [|b b' l l' H _ IH]; intros [|i] x E; try discriminate; [|exact (IH i x E)]. injection E as <-. exists b'. split; [reflexivity|exact H].
Qed.
Lemma same_tree_length l l' : same_tree l l' -> length l' = length l.
Proof. intros F. induction F; cbn; congruence. Qed.
Lemma same_tree_ids l l' : same_tree l l' -> map (@bID R) l' = map (@bID R) l.
Proof. intros F. induction F as [|b b' l l' (A & _) _ IH]; cbn; congruence. Qed.
Lemma same_tree_child l l' : same_tree l l' -> forall i p, child_of l i p -> child_of l' i p.
Proof.
  intros F i p (b & pb & Ei & Ep & L & E). destruct (same_tree_nth _ _ F _ _ Ei) as (b' & Ei' & A & B & C). destruct (same_tree_nth _ _ F _ _ Ep) as (pb' & Ep' & A' & B' & C').
  exists b', pb'. repeat split; auto; [rewrite C; exact L|congruence].
Qed.
Lemma same_tree_desc l l' : same_tree l l' -> forall i j, descends l i j -> descends l' i j.
Proof. intros F i j H. induction H as [|j p C _ IH]; [apply desc_self|]. apply (desc_step _ _ j p); [exact (same_tree_child _ _ F _ _ C)|exact IH]. Qed.

Lemma forall2_nth {A} (P : A -> A -> Prop) l l' : length l' = length l -> (forall i b, nth_error l i = Some b -> exists b', nth_error l' i = Some b' /\ P b b') -> Forall2 P l l'.
Proof.
  revert l'. induction l as [|b l IH]; intros [|b' l'] Len G; try discriminate; constructor.
  - destruct (G 0%nat b eq_refl) as (x & Ex & Hx). injection Ex as <-. exact Hx.
  - apply IH; [injection Len as Len; exact Len|]. intros j c Ej. apply (G (S j) c Ej).
Qed.

(** One arm. *)
Lemma adjust_tree base d d' : bone_adjust_x base d = Some d' -> same_tree (mdBones d) (mdBones d').
Proof.
  unfold bone_adjust_x. destruct (nth_error (mdBones d) base) as [b0|] eqn:Eb; [|discriminate]. destruct (longest_child b0 (mdBones d)) as [v|]; [|intros H; injection H as <-; apply same_tree_refl].
  intros E. destruct (turn_counts _ _ _ _ E) as (_ & Len & _). apply forall2_nth; [exact Len|]. intros i b Ei. eexists. split; [apply (turn_bones base _ d d' b0 E Eb i b Ei)|]. repeat split.
Qed.
Lemma adjust_others base d d' : bone_adjust_x base d = Some d' -> forall j b, nth_error (mdBones d) j = Some b -> ~ descends (mdBones d) base j -> nth_error (mdBones d') j = Some b.
Proof.
  unfold bone_adjust_x. destruct (nth_error (mdBones d) base) as [b0|] eqn:Eb; [|discriminate]. destruct (longest_child b0 (mdBones d)) as [v|]; [|intros H; injection H as <-; auto].
  intros E j b Ej H. rewrite (turn_bones base _ d d' b0 E Eb j b Ej). destruct (nmem j (select_bones (mdBones d) base)) eqn:M; [|destruct b; reflexivity].
  exfalso. apply H. apply (select_sound (mdBones d) base). apply nmem_in. exact M.
Qed.
Lemma adjust_self base d d' b0 : nth_error (mdBones d) base = Some b0 -> bone_adjust_x base d = Some d' -> nth_error (mdBones d') base = Some b0.
Proof.
  intros Eb. unfold bone_adjust_x. rewrite Eb. destruct (longest_child b0 (mdBones d)) as [v|]; [|intros H; injection H as <-; exact Eb].
  intros E. rewrite (turn_bones base _ d d' b0 E Eb base b0 Eb). destruct (nmem _ _); [|destruct b0; reflexivity].
  fold (z_turn (level_angle v)). unfold turned. rewrite z_turn_apply. destruct b0 as [id nm pa [x y z] w]. unfold set_pos, turn_z, v3add, v3sub; cbn [bPos bID bName bParent bWeights]; mproj; rnum. f_equal. f_equal. comps; ring.
Qed.
Lemma adjust_level base d d' b0 : NoDup (map (@bID R) (mdBones d)) -> (forall i p, child_of (mdBones d) i p -> (p < i)%nat) ->
  nth_error (mdBones d) base = Some b0 -> (0 < bID b0)%Z -> (exists x, In x (mdBones d) /\ bParent x = bID b0 /\ bPos x <> bPos b0) -> bone_adjust_x base d = Some d' ->
  exists i c c', farthest_child (mdBones d) b0 i c /\ nth_error (mdBones d') i = Some c' /\ bPos c' = v3add (bPos b0) (levelled (v3sub (bPos c) (bPos b0))).
Proof.
  intros N P Eb Hid (x & Hx & Px & Dx) E. destruct (longest_child b0 (mdBones d)) as [v|] eqn:El.
  - destruct (proj2 (longest_spec b0 (mdBones d)) v El) as (i & c & Ev & Fc). unfold bone_adjust_x in E. rewrite Eb, El in E. fold (z_turn (level_angle v)) in E.
    exists i, c. pose proof Fc as (Ec & Ep & _ & _). eexists. split; [exact Fc|]. split; [apply (turn_bones base _ d d' b0 E Eb i c Ec)|].
    assert (M : nmem i (select_bones (mdBones d) base) = true).
    { apply nmem_in. apply select_complete; [exact N|intros a b H; left; exact (P a b H)|]. apply (desc_step _ _ i base); [|apply desc_self]. exists c, b0. repeat split; auto. rewrite Ep. exact Hid. }
    rewrite M. cbn [bPos set_pos]. unfold turned. rewrite z_turn_apply, <- Ev, level_turn. reflexivity.
  - exfalso. pose proof (proj1 (longest_spec b0 (mdBones d)) El x Hx Px) as L. apply Dx. destruct (bPos x) as [a b c], (bPos b0) as [a' b' c']. unfold v3lensqr, v3dot, v3sub in L; mproj; rnum.
    pose proof (Rle_0_sqr (a - a')) as Q1. pose proof (Rle_0_sqr (b - b')) as Q2. pose proof (Rle_0_sqr (c - c')) as Q3. unfold Rsqr in Q1, Q2, Q3.
    assert (Z1 : (a - a') * (a - a') = 0) by lra. assert (Z2 : (b - b') * (b - b') = 0) by lra. assert (Z3 : (c - c') * (c - c') = 0) by lra.
    apply Rmult_integral in Z1. apply Rmult_integral in Z2. apply Rmult_integral in Z3. assert (a = a') as -> by lra. assert (b = b') as -> by lra. assert (c = c') as -> by lra. reflexivity.
Qed.

(** All that match. *)
Section Run.
Variable matches : string -> bool.
Definition tpose_step (r : option mdoc) (i : nat) : option mdoc :=
  match r with
  | None => None
  | Some d => match nth_error (mdBones d) i with
              | None => None
              | Some b => if matches (bName b) then bone_adjust_x i d else Some d
              end
  end.
Lemma auto_run d : auto_tpose matches d = fold_left tpose_step (seq 0 (length (mdBones d))) (Some d).
Proof. reflexivity. Qed.
Lemma run_none l : fold_left tpose_step l None = None.
Proof. induction l; [reflexivity|exact IHl]. Qed.
Lemma run_tree l : forall d d', fold_left tpose_step l (Some d) = Some d' -> same_tree (mdBones d) (mdBones d').
Proof.
  induction l as [|i l IH]; intros d d'; cbn [fold_left]; [intros H; injection H as <-; apply same_tree_refl|]. unfold tpose_step at 2. destruct (nth_error (mdBones d) i) as [b|] eqn:E; [|rewrite run_none; discriminate].
  destruct (matches (bName b)); [|apply IH]. destruct (bone_adjust_x i d) as [d1|] eqn:A; [|rewrite run_none; discriminate]. intros H. exact (same_tree_trans _ _ _ (adjust_tree _ _ _ A) (IH _ _ H)).
Qed.
Lemma run_others l : forall d d' j b, fold_left tpose_step l (Some d) = Some d' -> nth_error (mdBones d) j = Some b ->
  (forall i bi, In i l -> nth_error (mdBones d) i = Some bi -> matches (bName bi) = true -> ~ descends (mdBones d) i j) -> nth_error (mdBones d') j = Some b.
Proof.
  induction l as [|i l IH]; intros d d' j b; cbn [fold_left]; [intros H; injection H as <-; auto|]. unfold tpose_step at 2. destruct (nth_error (mdBones d) i) as [bi|] eqn:E; [|rewrite run_none; discriminate].
  destruct (matches (bName bi)) eqn:M.
  - destruct (bone_adjust_x i d) as [d1|] eqn:A; [|rewrite run_none; discriminate]. intros H Ej K. apply (IH d1 d' j b H).
    + apply (adjust_others _ _ _ A j b Ej). exact (K i bi (or_introl eq_refl) E M).
    + intros k bk Hk Ek Mk D. pose proof (same_tree_sym _ _ (adjust_tree _ _ _ A)) as S'. destruct (same_tree_nth _ _ S' _ _ Ek) as (b0 & E0 & _ & N0 & _).
      apply (K k b0 (or_intror Hk) E0); [rewrite N0; exact Mk|exact (same_tree_desc _ _ S' _ _ D)].
  - intros H Ej K. apply (IH d d' j b H Ej). intros k bk Hk. exact (K k bk (or_intror Hk)).
Qed.
Lemma run_idle l : forall d, (forall i b, In i l -> nth_error (mdBones d) i = Some b -> matches (bName b) = false) -> (forall i, In i l -> (i < length (mdBones d))%nat) -> fold_left tpose_step l (Some d) = Some d.
Proof.
  induction l as [|i l IH]; intros d H L; [reflexivity|]. cbn [fold_left]. unfold tpose_step at 2. destruct (nth_error (mdBones d) i) as [b|] eqn:E.
  - rewrite (H i b (or_introl eq_refl) E). apply IH; intros k; [intros bk Hk; apply H; right; exact Hk|intros Hk; apply L; right; exact Hk].
  - apply nth_error_None in E. specialize (L i (or_introl eq_refl)). lia.
Qed.

Lemma auto_others d d' j b : auto_tpose matches d = Some d' -> nth_error (mdBones d) j = Some b ->
  (forall i bi, descends (mdBones d) i j -> nth_error (mdBones d) i = Some bi -> matches (bName bi) = false) -> nth_error (mdBones d') j = Some b.
Proof.
  rewrite auto_run. intros H Ej K. apply (run_others _ _ _ _ _ H Ej). intros i bi _ Ei M D. rewrite (K i bi D Ei) in M. discriminate.
Qed.
Lemma auto_idle d : (forall b, In b (mdBones d) -> matches (bName b) = false) -> auto_tpose matches d = Some d.
Proof.
  intros H. rewrite auto_run. apply run_idle; [intros i b _ E; apply H; exact (nth_error_In _ _ E)|intros i Hi; apply in_seq in Hi; lia].
Qed.

Lemma child_parent l i p q : NoDup (map (@bID R) l) -> child_of l i p -> child_of l i q -> p = q.
Proof.
  intros N (b & pb & Ei & Ep & _ & E) (b' & qb & Ei' & Eq & _ & E'). rewrite Ei in Ei'. injection Ei' as <-. apply (proj1 (NoDup_nth_error (map (@bID R) l)) N).
  - apply nth_error_Some. rewrite nth_error_map, Ep. discriminate.
  - rewrite !nth_error_map, Ep, Eq. cbn. congruence.
Qed.

Lemma auto_level d d' i b0 : NoDup (map (@bID R) (mdBones d)) -> (forall k p, child_of (mdBones d) k p -> (p < k)%nat) -> auto_tpose matches d = Some d' ->
  nth_error (mdBones d) i = Some b0 -> (0 < bID b0)%Z -> matches (bName b0) = true ->
  (forall k bk, k <> i -> nth_error (mdBones d) k = Some bk -> matches (bName bk) = true -> ~ descends (mdBones d) k i /\ ~ descends (mdBones d) i k) ->
  (exists x, In x (mdBones d) /\ bParent x = bID b0 /\ bPos x <> bPos b0) ->
  nth_error (mdBones d') i = Some b0 /\
  exists k c c', farthest_child (mdBones d) b0 k c /\ nth_error (mdBones d') k = Some c' /\ bPos c' = v3add (bPos b0) (levelled (v3sub (bPos c) (bPos b0))).
Proof.
  intros N P H Ei Hid Mi K X. rewrite auto_run in H.
  assert (Hi : In i (seq 0 (length (mdBones d)))). { apply in_seq. assert (i < length (mdBones d))%nat by (apply nth_error_Some; rewrite Ei; discriminate). lia. }
  destruct (in_split _ _ Hi) as (l1 & l2 & El). pose proof (seq_NoDup (length (mdBones d)) 0) as Ns. rewrite El in H, Ns. pose proof (NoDup_remove_2 _ _ _ Ns) as Nin.
  rewrite fold_left_app in H. cbn [fold_left] in H. destruct (fold_left tpose_step l1 (Some d)) as [d1|] eqn:E1; [|cbn [tpose_step] in H; rewrite run_none in H; discriminate].
  assert (Kid : forall k x, nth_error (mdBones d) k = Some x -> bParent x = bID b0 -> child_of (mdBones d) k i) by (intros k x Ek Ep; exists x, b0; repeat split; auto; rewrite Ep; exact Hid).
  (* neither the bone nor its children belong to another match *)
  assert (Far : forall j, j = i \/ child_of (mdBones d) j i -> forall m bm, m <> i -> nth_error (mdBones d) m = Some bm -> matches (bName bm) = true -> ~ descends (mdBones d) m j).
  { intros j Hj m bm Nm Em Mm D. destruct (K m bm Nm Em Mm) as [K1 K2]. destruct Hj as [->|C]; [exact (K1 D)|].
    inversion D as [Q|j' p C' D' Q]; subst; [apply K2, (desc_step _ _ j i C), desc_self|]. rewrite (child_parent _ _ _ _ N C' C) in D'. exact (K1 D'). }
  assert (Keep1 : forall j b, j = i \/ child_of (mdBones d) j i -> nth_error (mdBones d) j = Some b -> nth_error (mdBones d1) j = Some b).
  { intros j b Hj Ej. apply (run_others _ _ _ _ _ E1 Ej). intros m bm Hm Em Mm. apply (Far j Hj m bm); [intros ->; apply Nin, in_or_app; left; exact Hm|exact Em|exact Mm]. }
  pose proof (run_tree _ _ _ E1) as T1. pose proof (Keep1 i b0 (or_introl eq_refl) Ei) as Ei1. unfold tpose_step at 2 in H. rewrite Ei1, Mi in H.
  destruct (bone_adjust_x i d1) as [d2|] eqn:A; [|rewrite run_none in H; discriminate]. pose proof (adjust_tree _ _ _ A) as T2. pose proof (same_tree_trans _ _ _ T1 T2) as T12.
  assert (Keep2 : forall j b, j = i \/ child_of (mdBones d) j i -> nth_error (mdBones d2) j = Some b -> nth_error (mdBones d') j = Some b).
  { intros j b Hj Ej. apply (run_others _ _ _ _ _ H Ej). intros m bm Hm Em Mm D. destruct (same_tree_nth _ _ (same_tree_sym _ _ T12) _ _ Em) as (bm0 & Em0 & _ & Nm & _).
    apply (Far j Hj m bm0); [intros ->; apply Nin, in_or_app; right; exact Hm|exact Em0|rewrite Nm; exact Mm|exact (same_tree_desc _ _ (same_tree_sym _ _ T12) _ _ D)]. }
  split; [apply Keep2; [left; reflexivity|exact (adjust_self _ _ _ _ Ei1 A)]|].
  (* children in the document reached are the children *)
  assert (Back : forall k x, nth_error (mdBones d1) k = Some x -> bParent x = bID b0 -> nth_error (mdBones d) k = Some x).
  { intros k x Ek Ep. destruct (same_tree_nth _ _ (same_tree_sym _ _ T1) _ _ Ek) as (x0 & Ek0 & _ & _ & P0). assert (C : child_of (mdBones d) k i) by (apply (Kid k x0 Ek0); congruence).
    rewrite (Keep1 k x0 (or_intror C) Ek0) in Ek. congruence. }
  destruct (adjust_level i d1 d2 b0) as (k & c & c' & (Ec & Pc & Lc & Fc) & Ec' & Pos); [rewrite (same_tree_ids _ _ T1); exact N| |exact Ei1|exact Hid| |exact A|].
  - intros a p C. apply P. exact (same_tree_child _ _ (same_tree_sym _ _ T1) _ _ C).
  - destruct X as (x & Hx & Px & Dx). destruct (In_nth_error _ _ Hx) as (k & Ek). exists x. split; [|auto]. apply (nth_error_In _ k). apply Keep1; [right; exact (Kid k x Ek Px)|exact Ek].
  - exists k, c, c'. pose proof (Back k c Ec Pc) as Ek. split; [|split; [apply Keep2; [right; exact (Kid k c Ek Pc)|exact Ec']|exact Pos]].
    split; [exact Ek|]. split; [exact Pc|]. split; [exact Lc|]. intros x Hx Px. destruct (In_nth_error _ _ Hx) as (m & Em). apply Fc; [|exact Px]. apply (nth_error_In _ m). apply Keep1; [right; exact (Kid m x Em Px)|exact Em].
Qed.
End Run.
