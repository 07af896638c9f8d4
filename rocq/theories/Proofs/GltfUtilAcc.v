(** Proofs about [ApplyTransform] and [FixJointComponentType] of gltfutil. *)
From Coq Require Import List ZArith Bool Lia Reals Lra.
From Verif.Model Require Import Num NumR Vec Matrix Mqo GltfUtil.
From Verif.Spec Require Import GeomSpec GltfUtilSpec.
From Verif.Proofs Require Import MatrixLemmas Mmd2MqoFaces GltfUtilProofs.
Import ListNotations.
Local Open Scope list_scope.

(** *** [ApplyTransform] *)
Section Gen.
Context {T : Type} {N : Num T}.

Lemma last_mark_none l a : (forall b, ~ In (a, b) l) -> last_mark l a = None.
Proof.
  induction l as [|(k, b) r IH]; intros H; [reflexivity|]. cbn [last_mark]. rewrite IH by (intros b' Hb; apply (H b'); right; exact Hb).
  destruct (Nat.eqb_spec k a) as [->|_]; [exfalso; apply (H b); left; reflexivity|reflexivity].
Qed.
Lemma last_mark_all l a b : (exists b', In (a, b') l) -> (forall b', In (a, b') l -> b' = b) -> last_mark l a = Some b.
Proof.
  induction l as [|(k, x) r IH]; intros (b' & Hb) H; [destruct Hb|]. cbn [last_mark].
  destruct (last_mark r a) as [y|] eqn:E.
  - f_equal. apply H. right. clear -E. revert E. induction r as [|(k, z) r IH]; cbn [last_mark]; [discriminate|]. destruct (last_mark r a); intros E.
    + right. apply IH. exact E.
    + destruct (Nat.eqb_spec k a) as [->|_]; [|discriminate]. injection E as ->. left. reflexivity.
  - destruct Hb as [Hb|Hb].
    + injection Hb as -> ->. rewrite Nat.eqb_refl. f_equal. apply H. left. reflexivity.
    + assert (E' : None = Some b) by (apply IH; [exists b'; exact Hb|intros; apply H; right; assumption]). discriminate E'.
Qed.
Lemma marks_spec ps a b : In (a, b) (marks ps) <-> if b then exists p, In p ps /\ In a (snd p) else exists p, In p ps /\ fst p = Some a.
Proof.
  unfold marks. rewrite in_flat_map. split.
  - intros (p & Hp & Hin). apply in_app_or in Hin as [Hin|Hin].
    + destruct (fst p) as [a'|] eqn:E; [|destruct Hin]. destruct Hin as [Hin|[]]. injection Hin as -> <-. eauto.
    + apply in_map_iff in Hin as (x & Hx & Hin). injection Hx as -> <-. eauto.
  - destruct b; intros (p & Hp & H); exists p; (split; [exact Hp|]); apply in_or_app.
    + right. apply in_map_iff. eauto.
    + left. rewrite H. left. reflexivity.
Qed.

Lemma nth_combine_seq {A} (l : list A) : forall k a, nth_error (combine (seq k (length l)) l) a = option_map (fun x => ((k + a)%nat, x)) (nth_error l a).
Proof.
  induction l as [|x l IH]; intros k a; [destruct a; reflexivity|]. cbn [length seq combine]. destruct a as [|a]; cbn [nth_error option_map].
  - rewrite Nat.add_0_r. reflexivity.
  - rewrite IH. replace (S k + a)%nat with (k + S a)%nat by lia. reflexivity.
Qed.
Lemma apply_at big m (d d' : tdoc T) a : apply_transform big m d = Some d' ->
  nth_error (tdAccs d') a = option_map (apply_acc big m (last_mark (marks (tdPrims d)) a)) (nth_error (tdAccs d) a).
Proof.
  unfold apply_transform. destruct (forallb _ _); [|discriminate]. intros H. injection H as <-. cbn [tdAccs]. rewrite nth_error_map, nth_combine_seq. cbn [Nat.add].
  destruct (nth_error _ a); reflexivity.
Qed.

Theorem apply_position big m (d d' : tdoc T) a x : apply_transform big m d = Some d' -> position_acc d a -> ~ offset_acc d a -> nth_error (tdAccs d) a = Some x ->
  exists x', nth_error (tdAccs d') a = Some x' /\ paData x' = map (mat_apply m) (paData x) /\ (paMin x', paMax x') = bounds big (paData x').
Proof.
  intros H P O E. rewrite (apply_at _ _ _ _ _ H), E. cbn [option_map]. rewrite (last_mark_all _ a false).
  - eexists. split; [reflexivity|]. split; [reflexivity|]. cbn [apply_acc paMin paMax paData]. rewrite <- surjective_pairing. reflexivity.
  - exists false. apply marks_spec. exact P.
  - intros b Hb. apply marks_spec in Hb. destruct b; [contradiction|reflexivity].
Qed.
Theorem apply_offset big m (d d' : tdoc T) a x : apply_transform big m d = Some d' -> offset_acc d a -> ~ position_acc d a -> nth_error (tdAccs d) a = Some x ->
  exists x', nth_error (tdAccs d') a = Some x' /\ paData x' = map (mat_apply scale_mat) (paData x) /\ (paMin x', paMax x') = bounds big (paData x').
Proof.
  intros H O P E. rewrite (apply_at _ _ _ _ _ H), E. cbn [option_map]. rewrite (last_mark_all _ a true).
  - eexists. split; [reflexivity|]. split; [reflexivity|]. cbn [apply_acc paMin paMax paData]. rewrite <- surjective_pairing. reflexivity.
  - exists true. apply marks_spec. exact O.
  - intros b Hb. apply marks_spec in Hb. destruct b; [reflexivity|contradiction].
Qed.
Theorem apply_other big m (d d' : tdoc T) a : apply_transform big m d = Some d' -> ~ offset_acc d a -> ~ position_acc d a -> nth_error (tdAccs d') a = nth_error (tdAccs d) a.
Proof.
  intros H O P. rewrite (apply_at _ _ _ _ _ H), last_mark_none.
  - destruct (nth_error (tdAccs d) a); reflexivity.
  - intros b Hb. apply marks_spec in Hb. destruct b; contradiction.
Qed.
Theorem apply_total big m (d : tdoc T) : (forall a, position_acc d a \/ offset_acc d a -> (a < length (tdAccs d))%nat) -> exists d', apply_transform big m d = Some d'.
Proof.
  intros H. unfold apply_transform. replace (forallb _ _) with true; [eauto|]. symmetry. apply forallb_forall. intros (a, b) Hb. cbn [fst]. apply Nat.ltb_lt, H.
  apply marks_spec in Hb. destruct b; auto.
Qed.
Lemma apply_nodes big m (d d' : tdoc T) : apply_transform big m d = Some d' -> tdNodes d' = map apply_node (tdNodes d) /\ tdBinds d' = map (map apply_bind) (tdBinds d) /\ tdPrims d' = tdPrims d /\ length (tdAccs d') = length (tdAccs d).
Proof.
  unfold apply_transform. destruct (forallb _ _); [|discriminate]. intros H. injection H as <-. cbn. rewrite map_length, combine_length, seq_length, Nat.min_id. auto.
Qed.
End Gen.

Local Open Scope R_scope.
Lemma nmin_R (a b : R) : nmin a b = Rmin a b.
Proof. unfold nmin. destruct (nltb b a) eqn:E; [apply Rltb_true in E|apply Rltb_false in E]; unfold Rmin; destruct (Rle_dec a b); lra. Qed.
Lemma nmax_R (a b : R) : nmaxi a b = Rmax a b.
Proof. unfold nmaxi. destruct (nltb a b) eqn:E; [apply Rltb_true in E|apply Rltb_false in E]; unfold Rmax; destruct (Rle_dec a b); lra. Qed.

(** One component of [bounds]. *)
Definition low (f : vec3 R -> R) (l : list (vec3 R)) (s : R) : R := fold_left (fun b v => Rmin b (f v)) l s.
Definition high (f : vec3 R -> R) (l : list (vec3 R)) (s : R) : R := fold_left (fun b v => Rmax b (f v)) l s.
Lemma bounds_parts l : forall lo hi,
  fold_left (fun b v => (mkV3 (nmin (vx (fst b)) (vx v)) (nmin (vy (fst b)) (vy v)) (nmin (vz (fst b)) (vz v)),
                         mkV3 (nmaxi (vx (snd b)) (vx v)) (nmaxi (vy (snd b)) (vy v)) (nmaxi (vz (snd b)) (vz v)))) l (lo, hi)
  = (mkV3 (low vx l (vx lo)) (low vy l (vy lo)) (low vz l (vz lo)), mkV3 (high vx l (vx hi)) (high vy l (vy hi)) (high vz l (vz hi))).
Proof.
  induction l as [|v l IH]; intros lo hi; [destruct lo, hi; reflexivity|]. cbn [fold_left fst snd]. rewrite IH. cbn [vx vy vz]. rewrite !nmin_R, !nmax_R. reflexivity.
Qed.
Lemma low_spec f l : forall s, (forall v, In v l -> low f l s <= f v) /\ low f l s <= s /\ (low f l s = s \/ exists v, In v l /\ f v = low f l s).
Proof.
  induction l as [|x l IH]; intros s; [split; [intros v []|split; [apply Rle_refl|left; reflexivity]]|]. cbn [low fold_left]. fold (low f l (Rmin s (f x))).
  destruct (IH (Rmin s (f x))) as (A & B & C). split; [|split].
  - intros v [<-|Hv]; [|apply A, Hv]. pose proof (Rmin_r s (f x)). lra.
  - pose proof (Rmin_l s (f x)). lra.
  - destruct C as [C|(v & Hv & E)]; [|right; exists v; split; [right; exact Hv|exact E]]. unfold Rmin in C. destruct (Rle_dec s (f x)); [left; unfold Rmin; destruct (Rle_dec s (f x)); lra|].
    right. exists x. split; [left; reflexivity|]. unfold Rmin. destruct (Rle_dec s (f x)); [lra|]. symmetry. exact C.
Qed.
Lemma high_spec f l : forall s, (forall v, In v l -> f v <= high f l s) /\ s <= high f l s /\ (high f l s = s \/ exists v, In v l /\ f v = high f l s).
Proof.
  induction l as [|x l IH]; intros s; [split; [intros v []|split; [apply Rle_refl|left; reflexivity]]|]. cbn [high fold_left]. fold (high f l (Rmax s (f x))).
  destruct (IH (Rmax s (f x))) as (A & B & C). split; [|split].
  - intros v [<-|Hv]; [|apply A, Hv]. pose proof (Rmax_r s (f x)). lra.
  - pose proof (Rmax_l s (f x)). lra.
  - destruct C as [C|(v & Hv & E)]; [|right; exists v; split; [right; exact Hv|exact E]]. unfold Rmax in C. destruct (Rle_dec s (f x)).
    + right. exists x. split; [left; reflexivity|]. unfold Rmax. destruct (Rle_dec s (f x)); [|lra]. symmetry. exact C.
    + left. unfold Rmax. destruct (Rle_dec s (f x)); [lra|exact C].
Qed.
Lemma tight_of f l big : l <> [] -> (forall v, In v l -> - big <= f v <= big) -> tight l f (low f l big) (high f l (- big)).
Proof.
  intros NE B. destruct l as [|x r] eqn:El; [congruence|]. rewrite <- El in *. assert (Hx : In x l) by (rewrite El; left; reflexivity).
  destruct (low_spec f l big) as (A & _ & C). destruct (high_spec f l (- big)) as (A' & _ & C'). pose proof (B x Hx). pose proof (A x Hx). pose proof (A' x Hx). split; [|split].
  - intros v Hv. split; auto.
  - destruct C as [C|C]; [|exact C]. exists x. split; [exact Hx|lra].
  - destruct C' as [C'|C']; [|exact C']. exists x. split; [exact Hx|lra].
Qed.
Theorem bounds_tight big l : l <> [] -> (forall v, In v l -> (- big <= vx v <= big) /\ (- big <= vy v <= big) /\ (- big <= vz v <= big)) ->
  let '(lo, hi) := bounds big l in tight l vx (vx lo) (vx hi) /\ tight l vy (vy lo) (vy hi) /\ tight l vz (vz lo) (vz hi).
Proof.
  intros NE B. unfold bounds. rewrite bounds_parts. cbn [vx vy vz].
  split; [|split]; apply (tight_of _ l big NE); intros v Hv; destruct (B v Hv) as (X & Y & Z0); assumption.
Qed.

Lemma apply_id (v : vec3 R) : mat_apply mat_id v = v.
Proof. destruct v. unfold mat_apply, mat_id. mproj. rnum. comps; ring. Qed.
Lemma node_same (n : jnode R) : apply_node n = n.
Proof. destruct n as [t r s c k]. unfold apply_node, scale_mat. cbn [GltfUtil.jnTrans GltfUtil.jnRot GltfUtil.jnScale GltfUtil.jnChildren GltfUtil.jnSkin]. rewrite apply_id. reflexivity. Qed.
Theorem nodes_same big m (d d' : tdoc R) : apply_transform big m d = Some d' -> tdNodes d' = tdNodes d.
Proof. intros H. destruct (apply_nodes _ _ _ _ H) as (-> & _). rewrite <- (map_id (tdNodes d)) at 2. apply map_ext. apply node_same. Qed.

Lemma norm_unit (a b c : R) : a * a + b * b + c * c = 1 -> v3normalize (mkV3 a b c) = mkV3 a b c.
Proof.
  intros H. unfold v3normalize, v3len. cbn [vx vy vz]. cbn [nadd nmul nsqrt nzero ndiv nltb none RNum]. rewrite H, sqrt_1.
  destruct (Rltb 0 1) eqn:E; [|apply Rltb_false in E; lra]. unfold Rdiv. rewrite Rinv_1, !Rmult_1_r. reflexivity.
Qed.
(** Columns of length one, as those of the matrices of unscaled joints. *)
Definition unit_columns (b : mat4 R) : Prop :=
  m0 b * m0 b + m1 b * m1 b + m2 b * m2 b = 1 /\ m4 b * m4 b + m5 b * m5 b + m6 b * m6 b = 1 /\ m8 b * m8 b + m9 b * m9 b + m10 b * m10 b = 1.
Theorem bind_same (b : mat4 R) : unit_columns b -> apply_bind b = b.
Proof.
  intros (A & B & C). unfold apply_bind, scale_mat. rewrite mat_mul_id_l. cbv zeta. rewrite !norm_unit by assumption. destruct b. reflexivity.
Qed.

Lemma scale_about (s : R) (m : mat4 R) (v : vec3 R) :
  mat_apply m (mkV3 (s * vx v) (s * vy v) (s * vz v)) = (let w := mat_apply m v in mkV3 (s * vx w) (s * vy w) (s * vz w)) <-> s = 1 \/ place_of m = mkV3 0 0 0.
Proof.
  unfold mat_apply, place_of. mproj. cbv zeta. rnum. split.
  - intros H. destruct (Req_dec s 1) as [->|Hs]; [left; reflexivity|right]. cbn [vx vy vz] in H. injection H as X Y Z0.
    assert (forall t, (s - 1) * t = 0 -> t = 0) as K. { intros t Ht. apply Rmult_integral in Ht as [Ht|Ht]; [lra|exact Ht]. }
    rewrite (K (m12 m)) by lra. rewrite (K (m13 m)) by lra. rewrite (K (m14 m)) by lra. reflexivity.
  - cbn [vx vy vz]. intros [->|H]; [comps; ring|]. injection H as -> -> ->. comps; ring.
Qed.
