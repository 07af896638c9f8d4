(** Sums of weights for [BoneTransform] (C83). *)
From Coq Require Import String List ZArith Reals Lra Lia Bool Permutation.
From Verif.Model Require Import Num NumR Vec Matrix Euler Mqo MqoDoc MqoTransform.
From Verif.Spec Require Import GeomSpec TransformSpec.
From Verif.Proofs Require Import Mqo2MmdProofs MqoDocProofs Mmd2MqoProofs.
Import ListNotations.
Local Open Scope R_scope.

Lemma sumR_app a b : sumR (a ++ b) = sumR a + sumR b.
Proof. unfold sumR. induction a as [|x a IH]; cbn; [lra|]. rewrite IH. lra. Qed.
Lemma sum_map_flat {A B} (g : B -> R) (f : A -> list B) l : sumR (map g (flat_map f l)) = sumR (map (fun x => sumR (map g (f x))) l).
Proof. induction l as [|x l IH]; cbn; [reflexivity|]. rewrite map_app, sumR_app, IH. reflexivity. Qed.
Lemma sum_zero {A} (g : A -> R) l : (forall x, In x l -> g x = 0) -> sumR (map g l) = 0.
Proof. induction l as [|x l IH]; cbn; intros H; [reflexivity|]. fold (sumR (map g l)). rewrite (H x (or_introl eq_refl)), IH; [lra|]. intros y Hy. apply H. right. exact Hy. Qed.
Lemma sum_ext {A} (g h : A -> R) l : (forall x, In x l -> g x = h x) -> sumR (map g l) = sumR (map h l).
Proof. intros H. f_equal. apply map_ext_in. exact H. Qed.
Lemma sum_perm {A} (g : A -> R) a b : Permutation a b -> sumR (map g a) = sumR (map g b).
Proof. unfold sumR. induction 1; cbn in *; lra. Qed.
Lemma sum_filter {A} (q : A -> bool) (g : A -> R) l : sumR (map g (filter q l)) = sumR (map (fun x => if q x then g x else 0) l).
Proof. induction l as [|x l IH]; cbn; [reflexivity|]. destruct (q x); cbn; rewrite <- ?IH; unfold sumR in *; lra. Qed.
Lemma sum_one {A} (dec : A -> A -> bool) (Hd : forall x y, dec x y = true <-> x = y) (u : A) (s : R) l : NoDup l ->
  (In u l -> sumR (map (fun x => if dec u x then s else 0) l) = s) /\ (~ In u l -> sumR (map (fun x => if dec u x then s else 0) l) = 0).
Proof.
  assert (Z : forall l, ~ In u l -> sumR (map (fun x => if dec u x then s else 0) l) = 0).
  { intros k Hk. apply sum_zero. intros x Hx. destruct (dec u x) eqn:E; [|reflexivity]. apply Hd in E. subst. contradiction. }
  intros N. split; [|apply Z]. induction N as [|x l H N IH]; [intros []|]. cbn. fold (sumR (map (fun x => if dec u x then s else 0) l)). intros [->|Hu].
  - rewrite Z by exact H. rewrite (proj2 (Hd u u) eq_refl). lra.
  - rewrite IH by exact Hu. destruct (dec u x) eqn:E; [apply Hd in E; subst; contradiction|lra].
Qed.

Definition pv (oi vi : nat) (p : nat * Z * R) : R := if part_at oi vi p then snd p else 0.
Lemma fold_sum {A} (g : A -> R) l : forall a, fold_left (fun s p => s + g p) l a = a + sumR (map g l).
Proof. induction l as [|x l IH]; intros a; cbn; [lra|]. rewrite IH. unfold sumR. lra. Qed.
Lemma weight_at_sum ps oi vi : match weight_at ps oi vi with Some w => w | None => 0 end = sumR (map (pv oi vi) ps).
Proof.
  unfold weight_at. change (pv oi vi) with (fun p : nat * Z * R => if part_at oi vi p then snd p else 0). rewrite <- (sum_filter (part_at oi vi) snd ps).
  destruct (filter (part_at oi vi) ps) as [|p l]; [reflexivity|]. rewrite fold_sum. lra.
Qed.

Lemma uid_named_in os n o : NoDup (map (@oName R) os) -> In o os -> oName o = n -> uid_named os n = Some (oUID o).
Proof.
  intros N Ho En. unfold uid_named, obj_by_name. destruct (last_index _ os) as [i|] eqn:E.
  - apply last_index_Some in E as (a & x & b & -> & <- & Q & _). rewrite nth_error_app2, Nat.sub_diag by lia. cbn. apply String.eqb_eq in Q. f_equal. f_equal.
    apply in_app_or in Ho. assert (M : NoDup (map (@oName R) (x :: a ++ b))) by (eapply Permutation_NoDup; [|exact N]; apply Permutation_map; symmetry; apply Permutation_middle).
    cbn in M. inversion M as [|? ? M1 M2]; subst. destruct Ho as [Ho|[Ho|Ho]]; [|exact Ho|]; exfalso; apply M1; rewrite Q; apply in_map; apply in_or_app; auto.
  - apply last_index_None in E. rewrite Forall_forall in E. specialize (E o Ho). cbn in E. apply String.eqb_neq in E. contradiction.
Qed.
Lemma uid_named_some os n u : uid_named os n = Some u -> exists o, In o os /\ oName o = n /\ oUID o = u.
Proof.
  unfold uid_named, obj_by_name. destruct (last_index _ os) as [i|] eqn:E; [|discriminate]. apply last_index_Some in E as (a & x & b & -> & <- & Q & _).
  rewrite nth_error_app2, Nat.sub_diag by lia. cbn. intros H. injection H as <-. apply String.eqb_eq in Q. exists x. split; [apply in_elt|]. split; [exact Q|reflexivity].
Qed.

Lemma nodup_uid os (o o' : object R) : NoDup (map (@oUID R) os) -> In o os -> In o' os -> oUID o = oUID o' -> o = o'.
Proof.
  induction os as [|x l IH]; [intros _ []|]. cbn. intros N Ho Ho' E. inversion N as [|? ? N1 N2]; subst. destruct Ho as [->|Ho], Ho' as [->|Ho']; auto.
  - exfalso. apply N1. rewrite E. apply in_map. exact Ho'.
  - exfalso. apply N1. rewrite <- E. apply in_map. exact Ho.
Qed.
Lemma nodup_name os (o o' : object R) : NoDup (map (@oName R) os) -> In o os -> In o' os -> oName o = oName o' -> o = o'.
Proof.
  induction os as [|x l IH]; [intros _ []|]. cbn. intros N Ho Ho' E. inversion N as [|? ? N1 N2]; subst. destruct Ho as [->|Ho], Ho' as [->|Ho']; auto.
  - exfalso. apply N1. rewrite E. apply in_map. exact Ho'.
  - exfalso. apply N1. rewrite <- E. apply in_map. exact Ho.
Qed.
Lemma meant_spec os ms id o : meant os ms id o = true <-> is_meant os ms id o.
Proof.
  unfold meant, is_meant. rewrite orb_true_iff, Z.eqb_eq, existsb_exists. apply or_iff_compat_l. split.
  - intros (m & Hm & H). apply andb_true_iff in H as [H1 H2]. apply existsb_exists in H1 as (b & Hb & H1). apply andb_true_iff in H1 as [A B]. apply String.eqb_eq in A. apply Z.eqb_eq in B.
    apply existsb_exists in H2 as (t & Ht & E). apply String.eqb_eq in E. subst t. exists m, b. auto.
  - intros (m & b & Hm & Hb & A & B & C). exists m. split; [exact Hm|]. apply andb_true_iff. split; apply existsb_exists; [exists b|exists (oName o)]; split; auto; [|apply String.eqb_refl].
    apply andb_true_iff. split; [apply String.eqb_eq; exact A|apply Z.eqb_eq; exact B].
Qed.
Definition ids_of (os : list (object R)) ms id := morph_objs os ms id ++ [id].
(** The objects the weights of an id are given to. *)
Lemma ids_in os ms id o : well_named os ms -> In o os -> (In (oUID o) (ids_of os ms id) <-> is_meant os ms id o).
Proof.
  intros (NU & NN & NT & HT) Ho. unfold ids_of, is_meant. rewrite in_app_iff. cbn [In]. split.
  - intros [H|[H|[]]]; [right|left; auto]. apply in_flat_map in H as (m & Hm & H). destruct (uid_named os (tlBase m)) as [u|] eqn:Eu; [|destruct H]. destruct (Z.eqb_spec u id) as [->|]; [|destruct H].
    apply in_map_iff in H as (t & E & Ht). apply uid_named_some in Eu as (b & Hb & A & B). exists m, b. repeat split; auto. destruct (HT m t Hm Ht) as [Hi _]. apply in_map_iff in Hi as (o2 & E2 & Ho2).
    rewrite (uid_named_in os t o2 NN Ho2 E2) in E. rewrite (nodup_uid os o o2 NU Ho Ho2 (eq_sym E)), E2. exact Ht.
  - intros [H|(m & b & Hm & Hb & A & B & C)]; [right; left; auto|left]. apply in_flat_map. exists m. split; [exact Hm|]. rewrite (uid_named_in os _ b NN Hb A), B, Z.eqb_refl. apply in_map_iff. exists (oName o). split; [|exact C].
    rewrite (uid_named_in os _ o NN Ho eq_refl). reflexivity.
Qed.
Lemma nodup_app_intro {A} (a b : list A) : NoDup a -> NoDup b -> (forall x, In x a -> ~ In x b) -> NoDup (a ++ b).
Proof. induction 1 as [|x a H N IH]; cbn; intros Nb D; [exact Nb|]. constructor; [|apply IH; auto; intros y Hy; apply D; right; exact Hy]. rewrite in_app_iff. intros [X|X]; [contradiction|]. apply (D x (or_introl eq_refl) X). Qed.
Lemma ids_nodup os ms id : well_named os ms -> NoDup (ids_of os ms id).
Proof.
  intros (NU & NN & NT & HT). unfold ids_of. apply nodup_app_intro; [|repeat constructor; auto|].
  - set (g := fun t => match uid_named os t with Some v => v | None => 0%Z end).
    assert (Inj : forall t t', In t (map (@oName R) os) -> In t' (map (@oName R) os) -> g t = g t' -> t = t').
    { intros t t' H H' E. apply in_map_iff in H as (o & E1 & H), H' as (o' & E1' & H'). unfold g in E. rewrite (uid_named_in os t o NN H E1), (uid_named_in os t' o' NN H' E1') in E. rewrite <- E1, <- E1', (nodup_uid os o o' NU H H' E). reflexivity. }
    revert NT HT. unfold morph_objs. induction ms as [|m ms IH]; cbn; intros NT HT; [constructor|].
    assert (N1 : NoDup (tlTargets m)) by (clear - NT; induction (tlTargets m) as [|x l IH]; [constructor|]; cbn in NT; inversion NT; subst; constructor; [intros X; apply H1; apply in_or_app; left; exact X|apply IH; exact H2]).
    assert (N2 : NoDup (flat_map tlTargets ms)) by (clear - NT; induction (tlTargets m) as [|x l IH]; [exact NT|]; cbn in NT; inversion NT; subst; apply IH; exact H2).
    assert (N3 : forall x, In x (tlTargets m) -> ~ In x (flat_map tlTargets ms)).
    { clear - NT. induction (tlTargets m) as [|y l IH]; [intros x []|]. cbn in NT. inversion NT; subst. intros x [->|Hx] Hb; [apply H1; apply in_or_app; right; exact Hb|]. apply (IH H2 x Hx Hb). }
    apply nodup_app_intro; [|apply IH; [exact N2|intros m' t Hm; apply HT; right; exact Hm]|].
    + destruct (uid_named os (tlBase m)) as [u|]; [|constructor]. destruct (u =? id)%Z; [|constructor]. fold g.
      assert (Hin : forall t, In t (tlTargets m) -> In t (map (@oName R) os)) by (intros t Ht; apply (HT m t); auto). revert Hin. clear - N1 Inj. induction N1 as [|x l H N IH]; cbn; intros Hin; [constructor|].
      constructor; [|apply IH; auto]. intros X. apply in_map_iff in X as (y & E & Hy). apply H. rewrite <- (Inj y x (Hin y (or_intror Hy)) (Hin x (or_introl eq_refl)) E). exact Hy.
    + intros x Hx Hy. destruct (uid_named os (tlBase m)) as [u|]; [|destruct Hx]. destruct (u =? id)%Z; [|destruct Hx]. apply in_map_iff in Hx as (t & E & Ht).
      apply in_flat_map in Hy as (m' & Hm' & Hy). destruct (uid_named os (tlBase m')) as [u'|]; [|destruct Hy]. destruct (u' =? id)%Z; [|destruct Hy]. apply in_map_iff in Hy as (t' & E' & Ht').
      assert (t = t') by (apply Inj; [apply (HT m t); auto|apply (HT m' t'); auto|unfold g; congruence]). subst t'. apply (N3 t Ht). apply in_flat_map. exists m'. auto.
  - intros x Hx [<-|[]]. apply in_flat_map in Hx as (m & Hm & H). destruct (uid_named os (tlBase m)) as [u|] eqn:Eu; [|destruct H]. destruct (Z.eqb_spec u id) as [->|]; [|destruct H].
    apply in_map_iff in H as (t & E & Ht). apply uid_named_some in Eu as (b & Hb & A & B). destruct (HT m t Hm Ht) as [Hi Ne]. apply in_map_iff in Hi as (o & E2 & Ho). rewrite (uid_named_in os t o NN Ho E2) in E.
    apply Ne. rewrite <- E2, <- A. f_equal. apply (nodup_uid os o b NU Ho Hb). congruence.
Qed.

Lemma index_uid os id oi (o : object R) : NoDup (map (@oUID R) os) -> nth_error os oi = Some o -> (index_of_uid os id = Some oi <-> oUID o = id).
Proof.
  intros N Eo. split.
  - intros E. apply index_of_uid_first in E as ((o' & E1 & E2) & _). congruence.
  - revert oi Eo. induction os as [|x l IH]; intros [|i] Eo E; try discriminate; cbn in Eo |- *.
    + injection Eo as ->. apply Z.eqb_eq in E. rewrite E. reflexivity.
    + inversion N as [|? ? N1 N2]; subst. destruct (Z.eqb_spec (oUID x) (oUID o)) as [E|_].
      * exfalso. apply N1. rewrite E. apply in_map. apply nth_error_In in Eo. exact Eo.
      * rewrite (IH N2 i Eo eq_refl). reflexivity.
Qed.
(** What a bone adds to a vertex. *)
Lemma bone_parts_sum os ms b oi o vi : well_named os ms -> nth_error os oi = Some o -> sumR (map (pv oi vi) (bone_parts os ms b)) = bone_share os ms b o vi.
Proof.
  intros W Eo. pose proof W as (NU & NN & NT & HT). unfold bone_parts, bone_share. rewrite sum_map_flat. apply sum_ext. intros [id vws] _. cbn [fst snd]. rewrite sum_map_flat. fold (ids_of os ms id).
  set (s := sumR (map (fun vw : Z * R => if (get_vertex_index_by_id o (fst vw) =? Z.of_nat vi)%Z then snd vw / 100 else 0) vws)).
  rewrite (sum_ext _ (fun x => if (oUID o =? x)%Z then s else 0)).
  - destruct (sum_one Z.eqb Z.eqb_eq (oUID o) s _ (ids_nodup os ms id W)) as [A B]. assert (I := ids_in os ms id o W (nth_error_In _ _ Eo)). rewrite <- meant_spec in I. destruct (meant os ms id o).
    + apply A. apply I. reflexivity.
    + apply B. intros X. apply I in X. discriminate.
  - intros x _. destruct (Z.eqb_spec (oUID o) x) as [E|E].
    + rewrite (proj2 (index_uid os x oi o NU Eo) E), Eo, map_map. unfold s. apply sum_ext. intros vw _. unfold pv, part_at. cbn [fst snd]. rewrite Nat.eqb_refl. reflexivity.
    + destruct (index_of_uid os x) as [oi'|] eqn:Ei; [|reflexivity]. destruct (nth_error os oi') as [o'|] eqn:Eo'; [|reflexivity]. rewrite map_map. apply sum_zero. intros vw _. unfold pv, part_at. cbn [fst snd].
      destruct (Nat.eqb_spec oi' oi) as [->|]; [|reflexivity]. exfalso. apply E. apply (index_uid os x oi o NU Eo). exact Ei.
Qed.

Lemma index_list_nth {A} (l : list A) i : nth_error (index_list l) i = option_map (fun x => (i, x)) (nth_error l i).
Proof.
  unfold index_list. assert (G : forall s, nth_error (combine (seq s (length l)) l) i = option_map (fun x => ((s + i)%nat, x)) (nth_error l i)).
  { revert i. induction l as [|x l IH]; intros [|i] s; cbn; try reflexivity; [rewrite Nat.add_0_r; reflexivity|]. rewrite IH. destruct (nth_error l i); cbn; [|reflexivity]. do 2 f_equal. lia. }
  apply (G 0%nat).
Qed.
Lemma index_list_map {A B} (f : nat * A -> B) (dflt : B) (l : list A) : map f (index_list l) = map (fun j => match nth_error l j with Some x => f (j, x) | None => dflt end) (seq 0 (length l)).
Proof.
  apply nth_error_ext. intros i. rewrite !nth_error_map, index_list_nth. destruct (lt_dec i (length l)) as [L|L].
  - assert (E : nth_error (seq 0 (length l)) i = Some i).
    { rewrite (nth_error_nth' _ 0%nat) by (rewrite seq_length; exact L). rewrite seq_nth by exact L. reflexivity. }
    rewrite E. cbn. destruct (nth_error l i) eqn:F; [reflexivity|]. apply nth_error_None in F. lia.
  - rewrite (proj2 (nth_error_None l i)) by lia. rewrite (proj2 (nth_error_None (seq 0 (length l)) i)) by (rewrite seq_length; lia). reflexivity.
Qed.
Lemma nmem_in i l : nmem i l = true <-> In i l.
Proof. unfold nmem. rewrite existsb_exists. split; [intros (x & H & E); apply Nat.eqb_eq in E; subst; exact H|intros H; exists i; split; [exact H|apply Nat.eqb_refl]]. Qed.
Lemma sum_sel {A} (g : A -> R) (l : list A) sel : NoDup sel -> (forall j, In j sel -> (j < length l)%nat) ->
  sumR (map (fun p => if nmem (fst p) sel then g (snd p) else 0) (index_list l)) = sumR (map (fun j => match nth_error l j with Some x => g x | None => 0 end) sel).
Proof.
  intros N H. rewrite (index_list_map _ 0). cbn [fst snd]. rewrite (sum_ext _ (fun j => if nmem j sel then (match nth_error l j with Some x => g x | None => 0 end) else 0)).
  - rewrite <- sum_filter. apply sum_perm. apply NoDup_Permutation; [apply NoDup_filter, seq_NoDup|exact N|]. intros x. rewrite filter_In, nmem_in, in_seq. split; [tauto|]. intros Hx. split; [|exact Hx]. specialize (H x Hx). lia.
  - intros j _. destruct (nth_error l j); destruct (nmem j sel); reflexivity.
Qed.
