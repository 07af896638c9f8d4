(** Morph groups: what [gen_morph_group] returns. *)
From Coq Require Import String List ZArith Bool Lia.
From Verif.Model Require Import Num Vec Matrix Mqo MqoDoc Mmd2Mqo.
From Verif Require Import Spec.MmdConvSpec Proofs.Grouping.
Import ListNotations.

Lemma nmem_In i l : nmem i l = true <-> In i l.
Proof.
  unfold nmem. rewrite existsb_exists. split.
  - intros (x & A & B). apply Nat.eqb_eq in B. subst. exact A.
  - intros A. exists i. split; [exact A|apply Nat.eqb_refl].
Qed.

Lemma in_combine_seq {A} (l : list A) : forall s i x, In (i, x) (combine (seq s (length l)) l) <-> s <= i /\ nth_error l (i - s) = Some x.
Proof.
  induction l as [|a l IH]; intros s i x; cbn [length seq combine].
  - split; [contradiction|]. intros (_ & H). destruct (i - s); discriminate.
  - cbn [In]. rewrite IH. split.
    + intros [E|(HA & HB)].
      * injection E as <- <-. split; [lia|]. rewrite Nat.sub_diag. reflexivity.
      * split; [lia|]. replace (i - s) with (S (i - S s)) by lia. exact HB.
    + intros (HA & HB). destruct (Nat.eq_dec i s) as [->|Ne].
      * left. rewrite Nat.sub_diag in HB. cbn in HB. congruence.
      * right. split; [lia|]. replace (i - s) with (S (i - S s)) in HB by lia. exact HB.
Qed.

Lemma in_faces_of fs v fi : In fi (faces_of fs v) <-> fi < length fs /\ In v (nth fi fs []).
Proof.
  unfold faces_of. rewrite in_flat_map. split.
  - intros ([i f] & A & B). apply in_combine_seq in A as (_ & A). rewrite Nat.sub_0_r in A. cbn [fst snd] in B.
    apply in_map_iff in B as (x & <- & B). apply filter_In in B as (B & C). apply Z.eqb_eq in C. subst x.
    split; [apply nth_error_Some; congruence|]. apply (nth_error_nth _ _ []) in A. rewrite A. exact B.
  - intros (A & B). exists (fi, nth fi fs []). split.
    + apply in_combine_seq. split; [lia|]. rewrite Nat.sub_0_r. apply nth_error_nth'. exact A.
    + cbn [fst snd]. apply in_map_iff. exists v. split; [reflexivity|]. apply filter_In. split; [exact B|apply Z.eqb_refl].
Qed.

Lemma in_groups_of fs f2fg targets : forall seen g,
  In g (groups_of fs f2fg targets seen) <-> In g seen \/ exists t f r, In t targets /\ faces_of fs t = f :: r /\ g = f2fg f.
Proof.
  induction targets as [|t targets IH]; intros seen g; cbn [groups_of].
  - split; [auto|]. intros [A|(t & _ & _ & [] & _)]. exact A.
  - destruct (faces_of fs t) as [|f r] eqn:E.
    + rewrite IH. split; (intros [A|(t' & f & r & A & B & C)]; [auto|right; exists t', f, r]).
      * split; [right; exact A|auto].
      * destruct A as [<-|A]; [congruence|auto].
    + rewrite IH. split.
      * intros [A|(t' & f' & r' & A & B & C)].
        -- destruct (nmem (f2fg f) seen); [auto|]. apply in_app_iff in A as [A|[<-|[]]]; [auto|].
           right. exists t, f, r. cbn. auto.
        -- right. exists t', f', r'. cbn. auto.
      * intros [A|(t' & f' & r' & [<-|A] & B & C)].
        -- left. destruct (nmem (f2fg f) seen); [auto|]. apply in_app_iff. auto.
        -- left. rewrite E in B. injection B as <- <-. subst g.
           destruct (nmem (f2fg f) seen) eqn:M; [apply nmem_In; exact M|]. apply in_app_iff. cbn. auto.
        -- right. exists t', f', r'. auto.
Qed.

(** *** Writing labels *)

Lemma fold_flat {A B C} (f : C -> B -> C) (g : A -> list B) l : forall c,
  fold_left f (flat_map g l) c = fold_left (fun c a => fold_left f (g a) c) l c.
Proof. induction l as [|a l IH]; intros c; [reflexivity|]. cbn [flat_map fold_left]. rewrite fold_left_app. apply IH. Qed.
Lemma fold_map {A B C} (f : C -> B -> C) (g : A -> B) l : forall c,
  fold_left f (map g l) c = fold_left (fun c a => f c (g a)) l c.
Proof. induction l as [|a l IH]; intros c; [reflexivity|]. cbn. apply IH. Qed.
Lemma fold_ext {A C} (f g : C -> A -> C) l : (forall c a, f c a = g c a) -> forall c, fold_left f l c = fold_left g l c.
Proof. intros H. induction l as [|a l IH]; intros c; [reflexivity|]. cbn. rewrite H. apply IH. Qed.

Definition writes (m2fg : nat -> list nat) (mg2m : nat -> list nat) (n : nat) : list (nat * nat) :=
  flat_map (fun mg => flat_map (fun mi => map (fun fg => (fg, mg)) (m2fg mi)) (mg2m mg)) (seq 0 n).

Lemma in_writes m2fg mg2m n fg mg : In (fg, mg) (writes m2fg mg2m n) <-> mg < n /\ exists mi, In mi (mg2m mg) /\ In fg (m2fg mi).
Proof.
  unfold writes. rewrite in_flat_map. split.
  - intros (g & A & B). apply in_seq in A. apply in_flat_map in B as (mi & B & C). apply in_map_iff in C as (x & E & C).
    injection E as -> ->. split; [lia|]. eauto.
  - intros (A & mi & B & C). exists mg. split; [apply in_seq; lia|]. apply in_flat_map. exists mi. split; [exact B|].
    apply in_map_iff. eauto.
Qed.

Lemma fold_writes l : forall (h : nat -> nat) k v, (forall v', In (k, v') l -> v' = v) ->
  fold_left (fun h e => fset h (fst e) (snd e)) l h k = (if existsb (fun e => Nat.eqb (fst e) k) l then v else h k).
Proof.
  induction l as [|[a b] l IH]; intros h k v H; [reflexivity|]. cbn [fold_left fst snd existsb].
  rewrite (IH _ k v) by (intros; apply H; right; assumption).
  destruct (Nat.eqb_spec a k) as [->|Ne]; cbn [orb].
  - destruct (existsb _ l); [reflexivity|]. unfold fset. rewrite Nat.eqb_refl. apply H. left. reflexivity.
  - destruct (existsb _ l); [reflexivity|]. unfold fset. destruct (Nat.eqb_spec k a); [congruence|reflexivity].
Qed.

Lemma in_seq_lt n x : In x (seq 0 n) -> x < n.
Proof. intros H. apply in_seq in H. lia. Qed.

Section Gen.
Context {T : Type} {N : Num T}.

Lemma valid_spec {A} (l : list A) i : valid l i = true <-> (0 <= i < Z.of_nat (length l))%Z.
Proof. unfold valid. rewrite andb_true_iff, Z.leb_le, Z.ltb_lt. reflexivity. Qed.

(** Some face uses a vertex the morph names. *)
Definition used (p : pmodel T) (m : pmorph T) : Prop :=
  exists t fi, In t (morph_targets_of m) /\ fi < length (pFaces p) /\ In t (nth fi (pFaces p) []).

Record Groups_ok (p : pmodel T) (mg2m mg2fs : list (list nat)) (lab : nat -> nat) : Prop := mkGO {
  go_len : length mg2fs = length mg2m;
  go_pos : 0 < length mg2m;
  go_zero : nth 0 mg2m [] = [];
  go_faces : forall mg, mg < length mg2m -> nth mg mg2fs [] = filter (fun fi => Nat.eqb (lab fi) mg) (seq 0 (length (pFaces p)));
  go_lab : forall fi, fi < length (pFaces p) -> lab fi < length mg2m;
  go_morph : forall mg mi, In mi (nth mg mg2m []) -> exists m, nth_error (pMorphs p) mi = Some m /\ used p m /\ 0 < mg < length mg2m /\
     forall t fi, In t (morph_targets_of m) -> fi < length (pFaces p) -> In t (nth fi (pFaces p) []) -> lab fi = mg;
  go_all : forall mi m, nth_error (pMorphs p) mi = Some m -> used p m -> exists mg, In mi (nth mg mg2m []);
  go_once : forall mg mg' mi, In mi (nth mg mg2m []) -> In mi (nth mg' mg2m []) -> mg = mg';
  go_nodup : forall mg, NoDup (nth mg mg2m []) }.

Lemma gen_spec p mg2m mg2fs : gen_morph_group p = Some (mg2m, mg2fs) -> exists lab, Groups_ok p mg2m mg2fs lab.
Proof.
  unfold gen_morph_group. set (fs := pFaces p). set (n := length fs).
  destruct (negb (forallb (forallb (valid (pVerts p))) fs)); [discriminate|].
  set (nx := fun i => flat_map (faces_of fs) (face_at fs i)).
  assert (Nx : forall i j, In j (nx i) <-> j < n /\ exists v, In v (nth i fs []) /\ In v (nth j fs [])).
  { intros i j. unfold nx, face_at. rewrite in_flat_map. split.
    - intros (v & A & B). apply in_faces_of in B as (B & C). eauto.
    - intros (A & v & B & C). exists v. split; [exact B|]. apply in_faces_of. auto. }
  assert (Bd : forall x j, x < n -> In j (nx x) -> j < n) by (intros x j _ H; apply Nx in H; tauto).
  assert (Sy : forall x j, x < n -> In j (nx x) -> In x (nx j)).
  { intros x j Hx H. apply Nx in H as (A & v & B & C). apply Nx. eauto. }
  destruct (grouping (S n) nx (fun _ => true) (seq 0 n) (fun _ => 0) [[]]) as [[f2fg fgs]|] eqn:E1; [|discriminate].
  destruct (grouping_spec nx n Bd Sy _ _ _ _ _ _ _ (groups_init nx n) (in_seq_lt _) E1)
    as (I1 & S1 & _).
  destruct (negb (forallb _ (pMorphs p))); [discriminate|].
  set (m2fg := map (fun m => groups_of fs f2fg (morph_targets_of m) []) (pMorphs p)). set (nm := length m2fg).
  set (fg2m := fun fg => filter (fun mi => nmem fg (nth mi m2fg [])) (seq 0 nm)).
  set (my := fun mi => flat_map fg2m (nth mi m2fg [])).
  assert (My : forall i j, In j (my i) <-> j < nm /\ exists fg, In fg (nth i m2fg []) /\ In fg (nth j m2fg [])).
  { intros i j. unfold my, fg2m. rewrite in_flat_map. split.
    - intros (g & A & B). apply filter_In in B as (B & C). apply in_seq in B. apply nmem_In in C. split; [lia|eauto].
    - intros (A & g & B & C). exists g. split; [exact B|]. apply filter_In. split; [apply in_seq; lia|apply nmem_In; exact C]. }
  assert (Bm : forall x j, x < nm -> In j (my x) -> j < nm) by (intros x j _ H; apply My in H; tauto).
  assert (Sm : forall x j, x < nm -> In j (my x) -> In x (my j)).
  { intros x j Hx H. apply My in H as (A & v & B & C). apply My. eauto. }
  set (start := fun mi => match nth mi m2fg [] with [] => false | _ => true end).
  destruct (grouping (S nm) my start (seq 0 nm) (fun _ => 0) [[]]) as [[m2mg mg2m']|] eqn:E2; [|discriminate].
  destruct (grouping_spec my nm Bm Sm _ _ _ _ _ _ _ (groups_init my nm) (in_seq_lt _) E2)
    as (I2 & S2 & _).
  pose proof (grouping_start my (S nm) start (seq 0 nm) (fun mi => nth mi m2fg [] <> [])) as St.
  specialize (St ltac:(intros x; unfold start; destruct (nth x m2fg []); discriminate)).
  specialize (St ltac:(intros x j _ H; apply My in H as (_ & g & _ & G); destruct (nth j m2fg []); [contradiction|discriminate])).
  specialize (St _ _ _ _ E2 ltac:(intros [|[|g]] x; cbn; tauto)).
  intros E. injection E as <- <-.
  set (h := fold_left _ (seq 0 (length mg2m')) (fun _ : nat => 0)).
  assert (Hh : h = fold_left (fun h e => fset h (fst e) (snd e)) (writes (fun mi => nth mi m2fg []) (fun mg => nth mg mg2m' []) (length mg2m')) (fun _ => 0)).
  { unfold h, writes. rewrite fold_flat. apply fold_ext. intros c mg. rewrite fold_flat. apply fold_ext. intros c' mi.
    rewrite fold_map. reflexivity. }
  (* all writes to a face group agree *)
  assert (Hw : forall fg mg mi, In mi (nth mg mg2m' []) -> In fg (nth mi m2fg []) -> h fg = mg).
  { intros fg mg mi A B. rewrite Hh. rewrite (fold_writes _ _ fg mg).
    - replace (existsb _ _) with true; [reflexivity|]. symmetry. apply existsb_exists. exists (fg, mg).
      split; [|apply Nat.eqb_refl]. apply in_writes. split; [|eauto].
      apply (gr_in _ _ _ _ I2) in A as (A & C). rewrite <- C. apply (gr_lt _ _ _ _ I2).
    - intros mg' W. apply in_writes in W as (_ & mi' & C & D).
      apply (gr_in _ _ _ _ I2) in A as (A1 & A2). apply (gr_in _ _ _ _ I2) in C as (C1 & C2).
      rewrite <- C2, <- A2. symmetry. apply (gr_closed _ _ _ _ I2 mi' mi); [congruence|]. apply My. split; [|eauto].
      apply (gr_n _ _ _ _ I2). congruence. }
  assert (Hlt : forall fg, h fg < length mg2m').
  { intros fg. destruct (existsb (fun e => Nat.eqb (fst e) fg) (writes (fun mi => nth mi m2fg []) (fun mg => nth mg mg2m' []) (length mg2m'))) eqn:Ex.
    - apply existsb_exists in Ex as ([a b] & A & B). cbn in B. apply Nat.eqb_eq in B. subst a.
      apply in_writes in A as (A & mi & C & D). rewrite (Hw _ _ _ C D). exact A.
    - rewrite Hh. rewrite (fold_writes _ _ fg 0).
      + rewrite Ex. apply (gr_len _ _ _ _ I2).
      + intros v' A. exfalso. assert (X : existsb (fun e => Nat.eqb (fst e) fg) (writes (fun mi => nth mi m2fg []) (fun mg => nth mg mg2m' []) (length mg2m')) = true).
        { apply existsb_exists. exists (fg, v'). split; [exact A|apply Nat.eqb_refl]. }
        congruence. }
  assert (Mm : forall mi, nth mi m2fg [] = match nth_error (pMorphs p) mi with Some m => groups_of fs f2fg (morph_targets_of m) [] | None => [] end).
  { intros mi. unfold m2fg. destruct (nth_error (pMorphs p) mi) as [m|] eqn:Em.
    - apply nth_error_nth. rewrite nth_error_map, Em. reflexivity.
    - apply nth_overflow. rewrite map_length. apply nth_error_None. exact Em. }
  (* all faces at a vertex are in the group of the first one *)
  assert (Fc : forall t f r fi, faces_of fs t = f :: r -> fi < n -> In t (nth fi fs []) -> f2fg fi = f2fg f).
  { intros t f r fi Ef Hf Ht. assert (Hin : In f (faces_of fs t)) by (rewrite Ef; left; reflexivity).
    apply in_faces_of in Hin as (A & B). apply (gr_closed _ _ _ _ I1 f fi).
    - apply S1; [apply in_seq; unfold n; lia|reflexivity].
    - apply Nx. split; [exact Hf|eauto]. }
  exists (fun fi => h (f2fg fi)). constructor.
  - rewrite map_length, seq_length. reflexivity.
  - apply (gr_len _ _ _ _ I2).
  - apply (gr_zero _ _ _ _ I2).
  - intros mg L. assert (Q : nth_error (seq 0 (length mg2m')) mg = Some mg).
    { rewrite nth_error_nth' with (d := 0); [|rewrite seq_length; exact L]. rewrite seq_nth by exact L. reflexivity. }
    apply nth_error_nth. rewrite nth_error_map, Q. reflexivity.
  - intros fi _. apply Hlt.
  - intros mg mi A. pose proof (St _ _ A) as Ne. change (nth mi m2fg [] <> []) in Ne. rewrite Mm in Ne.
    destruct (nth_error (pMorphs p) mi) as [m|] eqn:Em; [|congruence]. exists m. split; [reflexivity|].
    assert (U : used p m).
    { destruct (groups_of fs f2fg (morph_targets_of m) []) as [|g l] eqn:Eg; [congruence|].
      assert (X : In g (groups_of fs f2fg (morph_targets_of m) [])) by (rewrite Eg; left; reflexivity).
      apply in_groups_of in X as [[]|(t & f & r & X & Y & _)]. exists t, f.
      assert (Z : In f (faces_of fs t)) by (rewrite Y; left; reflexivity). apply in_faces_of in Z as (Z1 & Z2). auto. }
    split; [exact U|]. split.
    { apply (gr_in _ _ _ _ I2) in A as (A & B). pose proof (gr_lt _ _ _ _ I2 mi). lia. }
    intros t fi Ht Hfi Hin. apply (Hw (f2fg fi) mg mi A). rewrite Mm, Em. apply in_groups_of. right.
    destruct (faces_of fs t) as [|f r] eqn:Ef.
    + exfalso. assert (X : In fi (faces_of fs t)) by (apply in_faces_of; auto). rewrite Ef in X. contradiction.
    + exists t, f, r. split; [exact Ht|]. split; [exact Ef|]. eapply Fc; eauto.
  - intros mi m Em (t & fi & Ht & Hfi & Hin). exists (m2mg mi).
    apply (gr_in _ _ _ _ I2). split; [|reflexivity]. apply S2.
    + apply in_seq. split; [lia|]. unfold nm, m2fg. rewrite map_length. cbn. apply nth_error_Some. congruence.
    + unfold start. rewrite Mm, Em. destruct (groups_of fs f2fg (morph_targets_of m) []) eqn:Eg; [|reflexivity].
      exfalso. destruct (faces_of fs t) as [|f r] eqn:Ef.
      * assert (X : In fi (faces_of fs t)) by (apply in_faces_of; auto). rewrite Ef in X. contradiction.
      * assert (X : In (f2fg f) (groups_of fs f2fg (morph_targets_of m) [])).
        { apply in_groups_of. right. exists t, f, r. auto. }
        rewrite Eg in X. contradiction.
  - intros mg mg' mi A B. apply (gr_in _ _ _ _ I2) in A as (_ & A). apply (gr_in _ _ _ _ I2) in B as (_ & B). congruence.
  - apply (gr_nodup _ _ _ _ I2).
Qed.

Lemma gen_total (p : pmodel T) : proper p -> gen_morph_group p <> None.
Proof.
  intros P. unfold gen_morph_group. set (fs := pFaces p). set (n := length fs).
  assert (V1 : forallb (forallb (valid (pVerts p))) fs = true).
  { apply forallb_forall. intros f Hf. apply forallb_forall. intros v Hv. apply valid_spec.
    pose proof (pr_faces _ P) as F. rewrite Forall_forall in F. specialize (F f Hf). rewrite Forall_forall in F. auto. }
  rewrite V1. cbn [negb].
  set (nx := fun i => flat_map (faces_of fs) (face_at fs i)).
  assert (Nx : forall i j, In j (nx i) <-> j < n /\ exists v, In v (nth i fs []) /\ In v (nth j fs [])).
  { intros i j. unfold nx, face_at. rewrite in_flat_map. split.
    - intros (v & A & B). apply in_faces_of in B as (B & C). eauto.
    - intros (A & v & B & C). exists v. split; [exact B|]. apply in_faces_of. auto. }
  assert (Bd : forall x j, x < n -> In j (nx x) -> j < n) by (intros x j _ H; apply Nx in H; tauto).
  assert (Sy : forall x j, x < n -> In j (nx x) -> In x (nx j)).
  { intros x j Hx H. apply Nx in H as (A & v & B & C). apply Nx. eauto. }
  pose proof (grouping_total nx n Bd Sy (S n) (fun _ => true) (seq 0 n) _ _ (groups_init nx n)
    (in_seq_lt _) ltac:(lia)) as T1.
  destruct (grouping (S n) nx (fun _ => true) (seq 0 n) (fun _ => 0) [[]]) as [[f2fg fgs]|]; [|congruence].
  assert (V2 : forallb (fun m => forallb (valid (pVerts p)) (morph_targets_of m)) (pMorphs p) = true).
  { apply forallb_forall. intros m Hm. apply forallb_forall. intros v Hv. apply valid_spec.
    pose proof (pr_morphs _ P) as F. rewrite Forall_forall in F. specialize (F m Hm). rewrite Forall_forall in F. apply F. exact Hv. }
  rewrite V2. cbn [negb].
  set (m2fg := map (fun m => groups_of fs f2fg (morph_targets_of m) []) (pMorphs p)). set (nm := length m2fg).
  set (fg2m := fun fg => filter (fun mi => nmem fg (nth mi m2fg [])) (seq 0 nm)).
  set (my := fun mi => flat_map fg2m (nth mi m2fg [])).
  assert (My : forall i j, In j (my i) <-> j < nm /\ exists fg, In fg (nth i m2fg []) /\ In fg (nth j m2fg [])).
  { intros i j. unfold my, fg2m. rewrite in_flat_map. split.
    - intros (g & A & B). apply filter_In in B as (B & C). apply in_seq in B. apply nmem_In in C. split; [lia|eauto].
    - intros (A & g & B & C). exists g. split; [exact B|]. apply filter_In. split; [apply in_seq; lia|apply nmem_In; exact C]. }
  assert (Bm : forall x j, x < nm -> In j (my x) -> j < nm) by (intros x j _ H; apply My in H; tauto).
  assert (Sm : forall x j, x < nm -> In j (my x) -> In x (my j)).
  { intros x j Hx H. apply My in H as (A & v & B & C). apply My. eauto. }
  set (start := fun mi => match nth mi m2fg [] with [] => false | _ => true end).
  pose proof (grouping_total my nm Bm Sm (S nm) start (seq 0 nm) _ _ (groups_init my nm)
    (in_seq_lt _) ltac:(lia)) as T2.
  fold fg2m. fold my. fold start.
  destruct (grouping (S nm) my start (seq 0 nm) (fun _ => 0) [[]]) as [[m2mg mg2m']|]; [discriminate|congruence].
Qed.
End Gen.
