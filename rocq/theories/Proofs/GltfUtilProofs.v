(** [ResetJointMatrix] over exact numbers. *)
From Coq Require Import Reals Lra List ZArith Bool Lia.
From Verif.Model Require Import Num NumR Vec Matrix Mqo GltfUtil.
From Verif Require Import Spec.GeomSpec Spec.GltfUtilSpec.
From Verif Require Import Proofs.MatrixLemmas Proofs.Mmd2MqoFaces.
Import ListNotations.
Local Open Scope list_scope.

Section Shape.
Context {T : Type} {N : Num T}.
Implicit Types nodes : list (jnode T).

(** Nothing but translations and rotations changes. *)
Definition same_shape (n n' : jnode T) : Prop := jnScale n' = jnScale n /\ jnChildren n' = jnChildren n /\ jnSkin n' = jnSkin n.
Lemma same_shape_refl n : same_shape n n.
Proof. repeat split. Qed.
Lemma same_shape_trans a b c : same_shape a b -> same_shape b c -> same_shape a c.
Proof. intros (? & ? & ?) (? & ? & ?). repeat split; congruence. Qed.

Lemma turn_children_spec a cs : forall nodes nodes', turn_children a cs nodes = Some nodes' -> NoDup cs ->
  length nodes' = length nodes /\
  forall j n, nth_error nodes j = Some n -> nth_error nodes' j = Some (if in_dec Nat.eq_dec j cs then turn_child a n else n).
Proof.
  induction cs as [|c r IH]; intros nodes nodes' H ND; cbn [turn_children] in H.
  - injection H as <-. split; [reflexivity|]. intros j n Hj. exact Hj.
  - destruct (nth_error nodes c) as [nc|] eqn:Ec; [|discriminate]. inversion ND as [|? ? Hc ND']; subst.
    destruct (IH _ _ H ND') as (L & P). rewrite list_set_length in L. split; [exact L|]. intros j n Hj.
    destruct (Nat.eq_dec j c) as [->|D].
    + rewrite Ec in Hj. injection Hj as <-.
      rewrite (P c (turn_child a nc)); [|rewrite list_set_nth, Nat.eqb_refl; [reflexivity|apply nth_error_Some; congruence]].
      destruct (in_dec Nat.eq_dec c r) as [Hin|_]; [contradiction|]. destruct (in_dec Nat.eq_dec c (c :: r)) as [_|Hn]; [reflexivity|exfalso; apply Hn; left; reflexivity].
    + rewrite (P j n); [|rewrite list_set_nth; [destruct (Nat.eqb_spec j c); [contradiction|exact Hj]|apply nth_error_Some; congruence]].
      destruct (in_dec Nat.eq_dec j r) as [Hin|Hn], (in_dec Nat.eq_dec j (c :: r)) as [Hin'|Hn']; try reflexivity; exfalso; cbn in *; intuition.
Qed.

Lemma reset_at_spec nodes i nodes' f : reset_at nodes i = Some (nodes', f) ->
  (forall n, nth_error nodes i = Some n -> NoDup (jnChildren n) /\ ~ In i (jnChildren n)) ->
  length nodes' = length nodes /\ exists n, nth_error nodes i = Some n /\
  (f = false /\ nodes' = nodes /\ (is_rot_id (jnRot n) || jnSkin n)%bool = true \/
   f = true /\ is_rot_id (jnRot n) = false /\ jnSkin n = false /\
   forall j m, nth_error nodes j = Some m -> nth_error nodes' j =
     Some (if Nat.eq_dec j i then set_rot rot_id m else if in_dec Nat.eq_dec j (jnChildren n) then turn_child (jnRot n) m else m)).
Proof.
  unfold reset_at. destruct (nth_error nodes i) as [n|] eqn:E; [|discriminate]. intros H C. destruct (C n eq_refl) as (ND & NI). clear C.
  destruct (is_rot_id (jnRot n) || jnSkin n)%bool eqn:B.
  - injection H as <- <-. split; [reflexivity|]. exists n. split; [reflexivity|]. left. auto.
  - destruct (turn_children _ _ _) as [l|] eqn:Et; [|discriminate]. injection H as <- <-. apply orb_false_iff in B as (B1 & B2).
    destruct (turn_children_spec _ _ _ _ Et ND) as (L & P). rewrite list_set_length in L. split; [exact L|]. exists n. split; [reflexivity|]. right.
    split; [reflexivity|]. split; [exact B1|]. split; [exact B2|]. intros j m Hj. assert (Hi : (i < length nodes)%nat) by (apply nth_error_Some; congruence).
    destruct (Nat.eq_dec j i) as [->|D].
    + rewrite E in Hj. injection Hj as <-. rewrite (P i (set_rot rot_id n)); [|rewrite list_set_nth, Nat.eqb_refl by exact Hi; reflexivity].
      destruct (in_dec Nat.eq_dec i (jnChildren n)); [contradiction|reflexivity].
    + apply P. rewrite list_set_nth by exact Hi. destruct (Nat.eqb_spec j i); [contradiction|exact Hj].
Qed.

(** The tree stays. *)
Lemma parent_shape nodes nodes' : Forall2 same_shape nodes nodes' -> forall p i, parent_of nodes p i <-> parent_of nodes' p i.
Proof.
  intros F p i. unfold parent_of. split; intros (n & Hn & Hi).
  - revert p Hn. induction F as [|a b l l' S F IH]; intros [|p] Hn; try discriminate; cbn in Hn.
    + injection Hn as ->. exists b. split; [reflexivity|]. destruct S as (_ & -> & _). exact Hi.
    + apply (IH p) in Hn. exact Hn.
  - revert p Hn. induction F as [|a b l l' S F IH]; intros [|p] Hn; try discriminate; cbn in Hn.
    + injection Hn as ->. exists a. split; [reflexivity|]. destruct S as (_ & <- & _). exact Hi.
    + apply (IH p) in Hn. exact Hn.
Qed.
Lemma shape_nth nodes nodes' : Forall2 same_shape nodes nodes' -> forall i n, nth_error nodes i = Some n -> exists n', nth_error nodes' i = Some n' /\ same_shape n n'.
Proof.
  induction 1 as [|a b l l' S F IH]; intros [|i] n Hn; try discriminate; cbn in Hn; [injection Hn as ->; exists b; auto|]. apply (IH i n Hn).
Qed.
Lemma shape_nth_r nodes nodes' : Forall2 same_shape nodes nodes' -> forall i n', nth_error nodes' i = Some n' -> exists n, nth_error nodes i = Some n /\ same_shape n n'.
Proof.
  induction 1 as [|a b l l' S F IH]; intros [|i] n Hn; try discriminate; cbn in Hn; [injection Hn as ->; exists a; auto|]. apply (IH i n Hn).
Qed.
Lemma depth_shape nodes nodes' : Forall2 same_shape nodes nodes' -> forall i d, depth nodes i d -> depth nodes' i d.
Proof.
  intros F i d H. induction H as [i n Hn Hp|p i n d Hn Hp _ IH].
  - destruct (shape_nth _ _ F _ _ Hn) as (n' & Hn' & _). apply (d_root _ _ n'); [exact Hn'|]. intros p Hp'. apply (Hp p). apply (parent_shape _ _ F). exact Hp'.
  - destruct (shape_nth _ _ F _ _ Hn) as (n' & Hn' & _). apply (d_child _ p _ n'); [exact Hn'| |exact IH]. apply (parent_shape _ _ F). exact Hp.
Qed.
Lemma shape_children nodes nodes' : Forall2 same_shape nodes nodes' -> map (@jnChildren T) nodes' = map (@jnChildren T) nodes.
Proof. induction 1 as [|a b l l' (_ & S & _) F IH]; [reflexivity|]. cbn. rewrite S, IH. reflexivity. Qed.
Lemma shape_sym nodes nodes' : Forall2 same_shape nodes nodes' -> Forall2 same_shape nodes' nodes.
Proof. induction 1 as [|a b l l' (? & ? & ?) F IH]; constructor; [repeat split; congruence|exact IH]. Qed.
Lemma shape_trans a b c : Forall2 same_shape a b -> Forall2 same_shape b c -> Forall2 same_shape a c.
Proof.
  intros F. revert c. induction F as [|x y l l' S F IH]; intros c G; inversion G; subst; constructor; [eapply same_shape_trans; eassumption|apply IH; assumption].
Qed.
Lemma shape_len a b : Forall2 same_shape a b -> length b = length a.
Proof. induction 1; cbn; congruence. Qed.
Lemma forest_shape nodes nodes' : Forall2 same_shape nodes nodes' -> is_forest nodes -> is_forest nodes'.
Proof.
  intros F (A & B & C). split; [rewrite (shape_children _ _ F); exact A|]. split.
  - rewrite (shape_len _ _ F). clear A C. revert B. generalize (length nodes). intros k. induction F as [|x y l l' (_ & S & _) F IH]; intros B; [constructor|].
    inversion B; subst. constructor; [rewrite S; assumption|apply IH; assumption].
  - intros i n' Hn'. destruct (shape_nth_r _ _ F _ _ Hn') as (n & Hn & _). destruct (C i n Hn) as (d & Hd). exists d. apply (depth_shape _ _ F). exact Hd.
Qed.

Lemma nodup_concat_in {A} (ls : list (list A)) l : NoDup (concat ls) -> In l ls -> NoDup l.
Proof.
  induction ls as [|x r IH]; intros ND Hin; [destruct Hin|]. cbn in ND. destruct Hin as [->|Hin].
  - clear IH. induction l as [|y l IHl]; [constructor|]. cbn in ND. inversion ND as [|? ? N1 N2]; subst. constructor; [intros Hy; apply N1; apply in_or_app; left; exact Hy|apply IHl; exact N2].
  - apply IH; [|exact Hin]. clear IH Hin. induction x as [|y x IHx]; [exact ND|]. cbn in ND. inversion ND; subst. apply IHx. assumption.
Qed.
Lemma nodup_app_disjoint {A} (a b : list A) x : NoDup (a ++ b) -> In x a -> In x b -> False.
Proof. induction a as [|y r IH]; cbn; intros ND Ha Hb; [exact Ha|]. inversion ND as [|? ? N1 N2]; subst. destruct Ha as [->|Ha]; [apply N1; apply in_or_app; right; exact Hb|apply IH; assumption]. Qed.
Lemma one_parent nodes p q i : NoDup (concat (map (@jnChildren T) nodes)) -> parent_of nodes p i -> parent_of nodes q i -> p = q.
Proof.
  unfold parent_of. intros ND (n & Hn & Hi) (m & Hm & Hj). revert p q Hn Hm. induction nodes as [|x r IH]; intros p q Hn Hm; [destruct p; discriminate|].
  cbn in ND. assert (In_r : forall k y, nth_error r k = Some y -> In i (jnChildren y) -> In i (concat (map (@jnChildren T) r))).
  { intros k y Hk Hy. apply in_concat. exists (jnChildren y). split; [apply in_map; eapply nth_error_In; exact Hk|exact Hy]. }
  assert (ND' : NoDup (concat (map (@jnChildren T) r))).
  { clear - ND. induction (jnChildren x) as [|y l IHl]; [exact ND|]. cbn in ND. inversion ND; subst. apply IHl. assumption. }
  destruct p as [|p], q as [|q]; cbn in Hn, Hm.
  - reflexivity.
  - injection Hn as ->. exfalso. eapply nodup_app_disjoint; [exact ND|exact Hi|eapply In_r; eassumption].
  - injection Hm as ->. exfalso. eapply nodup_app_disjoint; [exact ND|exact Hj|eapply In_r; eassumption].
  - f_equal. apply IH; assumption.
Qed.
Lemma depth_unique nodes : NoDup (concat (map (@jnChildren T) nodes)) -> forall i d, depth nodes i d -> forall d', depth nodes i d' -> d' = d.
Proof.
  intros ND i d H. induction H as [i n Hn Hp|p i n d Hn Hp _ IH]; intros d' H'; inversion H' as [? ? ? Hp'|q ? ? d2 ? Hp' H2]; subst; try reflexivity.
  - exfalso. eapply Hp. exact Hp'.
  - exfalso. eapply Hp'. exact Hp.
  - rewrite (one_parent nodes q p i ND Hp' Hp) in H2. f_equal. apply IH. exact H2.
Qed.
Lemma no_self nodes i : is_forest nodes -> ~ parent_of nodes i i.
Proof.
  intros (ND & _ & C) H. pose proof H as (n & Hn & _). destruct (C i n Hn) as (d & Hd). pose proof (depth_unique nodes ND i d Hd (S d) (d_child _ i i n d Hn H Hd)). lia.
Qed.
Lemma forest_at nodes i n : is_forest nodes -> nth_error nodes i = Some n -> NoDup (jnChildren n) /\ ~ In i (jnChildren n).
Proof.
  intros F Hn. split; [eapply nodup_concat_in; [exact (proj1 F)|apply in_map; eapply nth_error_In; exact Hn]|]. intros Hi. apply (no_self nodes i F). exists n. auto.
Qed.

Lemma reset_at_shape nodes i nodes' f : is_forest nodes -> reset_at nodes i = Some (nodes', f) -> Forall2 same_shape nodes nodes'.
Proof.
  intros F H. destruct (reset_at_spec _ _ _ _ H (fun n => forest_at nodes i n F)) as (L & n & Hn & [(_ & -> & _)|(_ & _ & _ & P)]).
  - clear. induction nodes; constructor; [apply same_shape_refl|assumption].
  - assert (Q : forall j m, nth_error nodes j = Some m -> exists m', nth_error nodes' j = Some m' /\ same_shape m m').
    { intros j m Hj. rewrite (P j m Hj). eexists. split; [reflexivity|]. destruct (Nat.eq_dec j i); [repeat split|]. destruct (in_dec _ _ _); repeat split. }
    clear - L Q. revert nodes' L Q. induction nodes as [|a r IH]; intros [|b r'] L Q; try discriminate; [constructor|].
    constructor; [destruct (Q O a eq_refl) as (m' & [= ->] & S); exact S|]. apply IH; [cbn in L; lia|]. intros j m Hj. exact (Q (S j) m Hj).
Qed.
End Shape.

Local Open Scope R_scope.

Lemma turn_trans (a : vec4 R) (v : vec3 R) : unit_quat a ->
  let p2 := qmul (qmul a (mkV4 (vx v) (vy v) (vz v) 1)) (qinv a) in mkV3 (qx p2) (qy p2) (qz p2) = mat_apply (mat_rot a) v.
Proof.
  unfold unit_quat. intros H. cbv zeta. mdestr. unfold qmul, qinv, mat_apply, mat_rot. mproj. rnum.
  assert (Hw : qw * qw = 1 - qx * qx - qy * qy - qz * qz) by (rewrite <- H; ring). comps; ring [Hw].
Qed.
Lemma rot_translate (a : vec4 R) (v : vec3 R) : let w := mat_apply (mat_rot a) v in
  mat_mul (mat_rot a) (mat_translate (vx v) (vy v) (vz v)) = mat_mul (mat_translate (vx w) (vy w) (vz w)) (mat_rot a).
Proof. cbv zeta. mdestr. unfold mat_mul, mat_rot, mat_translate, mat_apply. mproj. rnum. comps; ring. Qed.
Lemma rot_scale (a : vec4 R) (k : R) : mat_mul (mat_rot a) (mat_scale k k k) = mat_mul (mat_scale k k k) (mat_rot a).
Proof. mdestr. unfold mat_mul, mat_rot, mat_scale. mproj. rnum. comps; ring. Qed.
Lemma mat_rot_id : mat_rot (rot_id : vec4 R) = mat_id.
Proof. unfold mat_rot, rot_id, mat_id. mproj. rnum. comps; ring. Qed.
Lemma rot_id_unit : unit_quat (rot_id : vec4 R).
Proof. unfold unit_quat, rot_id. mproj. rnum. ring. Qed.

Lemma local_turned (n c : jnode R) : unit_quat (jnRot n) -> unit_quat (jnRot c) -> uniform (jnScale n) ->
  mat_mul (local_mat (set_rot rot_id n)) (local_mat (turn_child (jnRot n) c)) = mat_mul (local_mat n) (local_mat c).
Proof.
  intros Hn Hc (U1 & U2). unfold local_mat, set_rot, turn_child. cbn [jnTrans jnRot jnScale].
  pose proof (turn_trans (jnRot n) (jnTrans c) Hn) as TT. cbv zeta in TT. change (@none R RNum) with 1. cbv zeta. rewrite TT. clear TT.
  unfold mat_trs. rewrite mat_rot_id, mat_mul_id_l, (mat_rot_mul _ _ Hn Hc), U1, U2. pose proof (rot_scale (jnRot n) (vx (jnScale n))) as RS. pose proof (rot_translate (jnRot n) (jnTrans c)) as RT. cbv zeta in RT.
  revert RS RT. generalize (mat_apply (mat_rot (jnRot n)) (jnTrans c)). intros w.
  generalize (mat_rot (jnRot n)) (mat_rot (jnRot c)) (mat_scale (vx (jnScale n)) (vx (jnScale n)) (vx (jnScale n))) (mat_scale (vx (jnScale c)) (vy (jnScale c)) (vz (jnScale c)))
    (mat_translate (vx (jnTrans n)) (vy (jnTrans n)) (vz (jnTrans n))) (mat_translate (vx (jnTrans c)) (vy (jnTrans c)) (vz (jnTrans c))) (mat_translate (vx w) (vy w) (vz w)).
  intros Ra Rb Sa Sc Ta Tc Tw RS RT. rewrite RS.
  rewrite <- !mat_mul_assoc. rewrite (mat_mul_assoc Ra Tc), RT, <- !mat_mul_assoc. reflexivity.
Qed.
Lemma place_mul (m a b : mat4 R) : m12 a = m12 b -> m13 a = m13 b -> m14 a = m14 b -> m15 a = m15 b -> place_of (mat_mul m a) = place_of (mat_mul m b).
Proof. intros H1 H2 H3 H4. unfold place_of, mat_mul. cbn [m12 m13 m14]. rewrite H1, H2, H3, H4. reflexivity. Qed.
Lemma linear_last (q : vec4 R) (s : vec3 R) : let x := mat_mul (mat_rot q) (mat_scale (vx s) (vy s) (vz s)) in m12 x = 0 /\ m13 x = 0 /\ m14 x = 0 /\ m15 x = 1.
Proof. cbv zeta. unfold mat_mul, mat_rot, mat_scale. cbn [m0 m1 m2 m3 m4 m5 m6 m7 m8 m9 m10 m11 m12 m13 m14 m15]. rnum. repeat split; ring. Qed.
Lemma trs_last (t : vec3 R) q s : m12 (mat_trs t q s) = vx t /\ m13 (mat_trs t q s) = vy t /\ m14 (mat_trs t q s) = vz t /\ m15 (mat_trs t q s) = 1.
Proof.
  unfold mat_trs. pose proof (linear_last q s) as H. cbv zeta in H. revert H. generalize (mat_mul (mat_rot q) (mat_scale (vx s) (vy s) (vz s))). intros x (H1 & H2 & H3 & H4).
  unfold mat_mul, mat_translate. cbn [m0 m1 m2 m3 m4 m5 m6 m7 m8 m9 m10 m11 m12 m13 m14 m15]. rewrite H1, H2, H3, H4. rnum. repeat split; ring.
Qed.
Lemma place_rot (m : mat4 R) (n : jnode R) q : place_of (mat_mul m (local_mat (set_rot q n))) = place_of (mat_mul m (local_mat n)).
Proof.
  unfold local_mat, set_rot. cbn [jnTrans jnRot jnScale]. destruct (trs_last (jnTrans n) q (jnScale n)) as (A1 & A2 & A3 & A4), (trs_last (jnTrans n) (jnRot n) (jnScale n)) as (B1 & B2 & B3 & B4).
  apply place_mul; congruence.
Qed.
Lemma place_rot_root (n : jnode R) q : place_of (local_mat (set_rot q n)) = place_of (local_mat n).
Proof. rewrite <- (mat_mul_id_l (local_mat (set_rot q n))), <- (mat_mul_id_l (local_mat n)). apply place_rot. Qed.

(** What one node does to the scene. *)
Definition moves (nodes nodes' : list (jnode R)) : Prop := Forall2 same_shape nodes nodes' /\ rigid_nodes nodes' /\
  forall j m, world nodes j m -> exists m', world nodes' j m' /\ place_of m' = place_of m /\
    forall n, nth_error nodes j = Some n -> jnSkin n = true -> m' = m.

Lemma reset_at_moves nodes i nodes' f : is_forest nodes -> rigid_nodes nodes -> reset_at nodes i = Some (nodes', f) -> moves nodes nodes'.
Proof.
  intros F RG H. pose proof (reset_at_shape _ _ _ _ F H) as SH. split; [exact SH|].
  destruct (reset_at_spec _ _ _ _ H (fun n => forest_at nodes i n F)) as (L & n & Hn & [(_ & -> & _)|(_ & _ & Sk & P)]).
  { split; [exact RG|]. intros j m W. exists m. repeat split; auto. }
  assert (RN : forall j m, nth_error nodes j = Some m -> unit_quat (jnRot m) /\ uniform (jnScale m)).
  { intros j m Hj. unfold rigid_nodes in RG. rewrite Forall_forall in RG. apply RG. eapply nth_error_In. exact Hj. }
  destruct (RN i n Hn) as (Un & Sn). split.
  { apply Forall_forall. intros m' Hm. apply In_nth_error in Hm as (j & Hj). destruct (shape_nth_r _ _ SH _ _ Hj) as (m & Hm & S). rewrite (P j m Hm) in Hj. injection Hj as <-.
    destruct (RN j m Hm) as (Um & Sm). destruct (Nat.eq_dec j i); [split; [apply rot_id_unit|exact Sm]|]. destruct (in_dec _ _ _); [|split; assumption].
    split; [apply qmul_unit; assumption|exact Sm]. }
  pose proof (parent_shape _ _ SH) as PS.
  assert (G : forall j m, world nodes j m -> exists m', world nodes' j m' /\ (j <> i -> m' = m) /\
    (j = i -> exists q, m = mat_mul q (local_mat n) /\ m' = mat_mul q (local_mat (set_rot rot_id n)))).
  { intros j m W. induction W as [j nj Hj Hp|p j nj m Hj Hp W IH].
    - pose proof (P j nj Hj) as Hj'. destruct (Nat.eq_dec j i) as [->|D].
      + exists (local_mat (set_rot rot_id nj)). split; [apply w_root; [exact Hj'|]|]. { intros p Hpp. apply (Hp p). apply PS. exact Hpp. }
        split; [intros C; exfalso; apply C; reflexivity|]. intros _. rewrite Hn in Hj. injection Hj as <-. exists mat_id. rewrite !mat_mul_id_l. auto.
      + destruct (in_dec Nat.eq_dec j (jnChildren n)) as [Hin|_]; [exfalso; apply (Hp i); exists n; auto|].
        exists (local_mat nj). split; [apply w_root; [exact Hj'|intros p Hpp; apply (Hp p); apply PS; exact Hpp]|]. split; [reflexivity|intros C; contradiction].
    - destruct IH as (mp' & Wp & K1 & K2). pose proof (P j nj Hj) as Hj'. assert (Hp' : parent_of nodes' p j) by (apply PS; exact Hp).
      destruct (Nat.eq_dec j i) as [->|D].
      + assert (p <> i) by (intros ->; exact (no_self nodes i F Hp)). rewrite (K1 H0) in Wp. exists (mat_mul m (local_mat (set_rot rot_id nj))).
        split; [eapply w_child; eassumption|]. split; [intros C; exfalso; apply C; reflexivity|]. intros _. rewrite Hn in Hj. injection Hj as <-. eauto.
      + destruct (in_dec Nat.eq_dec j (jnChildren n)) as [Hin|Hnin].
        * assert (p = i) by (apply (one_parent nodes p i j (proj1 F) Hp); exists n; auto). subst p. destruct (K2 eq_refl) as (q & -> & ->).
          eexists. split; [eapply w_child; [exact Hj'|exact Hp'|exact Wp]|]. split; [|intros C; contradiction]. intros _.
          rewrite <- !mat_mul_assoc. rewrite local_turned; [reflexivity|exact Un|exact (proj1 (RN j nj Hj))|exact Sn].
        * assert (p <> i). { intros ->. apply Hnin. destruct Hp as (n' & Hn' & Hi'). rewrite Hn in Hn'. injection Hn' as <-. exact Hi'. }
          rewrite (K1 H0) in Wp. eexists. split; [eapply w_child; [exact Hj'|exact Hp'|exact Wp]|]. split; [reflexivity|intros C; contradiction]. }
  intros j m W. destruct (G j m W) as (m' & W' & K1 & K2). exists m'. split; [exact W'|]. destruct (Nat.eq_dec j i) as [->|D].
  - destruct (K2 eq_refl) as (q & -> & ->). split; [apply place_rot|]. intros n0 Hn0 Hs. rewrite Hn in Hn0. injection Hn0 as <-. congruence.
  - rewrite (K1 D). split; [reflexivity|reflexivity].
Qed.

Lemma moves_refl nodes : rigid_nodes nodes -> moves nodes nodes.
Proof. intros R. split; [clear; induction nodes; constructor; [apply same_shape_refl|assumption]|]. split; [exact R|]. intros j m W. exists m. repeat split; auto. Qed.
Lemma moves_trans a b c : moves a b -> moves b c -> moves a c.
Proof.
  intros (S1 & _ & M1) (S2 & R2 & M2). split; [eapply shape_trans; eassumption|]. split; [exact R2|]. intros j m W. destruct (M1 j m W) as (m1 & W1 & E1 & K1).
  destruct (M2 j m1 W1) as (m2 & W2 & E2 & K2). exists m2. split; [exact W2|]. split; [congruence|]. intros n Hn Hs. destruct (shape_nth _ _ S1 _ _ Hn) as (n1 & Hn1 & _ & _ & Hs1).
  rewrite (K2 n1 Hn1) by congruence. apply (K1 n Hn Hs).
Qed.
Lemma reset_pass_moves is_ : forall nodes f nodes' f', is_forest nodes -> rigid_nodes nodes -> reset_pass is_ nodes f = Some (nodes', f') -> moves nodes nodes'.
Proof.
  induction is_ as [|i r IH]; intros nodes f nodes' f' F RG H; cbn [reset_pass] in H; [injection H as <- <-; apply moves_refl; exact RG|].
  destruct (reset_at nodes i) as [[n1 f1]|] eqn:E; [|discriminate]. pose proof (reset_at_moves _ _ _ _ F RG E) as M. eapply moves_trans; [exact M|].
  eapply IH; [eapply forest_shape; [exact (proj1 M)|exact F]|exact (proj1 (proj2 M))|exact H].
Qed.
Lemma reset_passes_moves k : forall nodes nodes', is_forest nodes -> rigid_nodes nodes -> reset_passes k nodes = Some nodes' -> moves nodes nodes'.
Proof.
  induction k as [|k IH]; intros nodes nodes' F RG H; cbn [reset_passes] in H; [injection H as <-; apply moves_refl; exact RG|].
  destruct (reset_pass _ nodes false) as [[n1 [|]]|] eqn:E; [| |discriminate].
  - pose proof (reset_pass_moves _ _ _ _ _ F RG E) as M. eapply moves_trans; [exact M|]. eapply IH; [eapply forest_shape; [exact (proj1 M)|exact F]|exact (proj1 (proj2 M))|exact H].
  - injection H as <-. exact (reset_pass_moves _ _ _ _ _ F RG E).
Qed.

(** *** Rotations go away *)
Lemma is_rot_id_R (q : vec4 R) : is_rot_id q = true -> q = rot_id.
Proof.
  unfold is_rot_id, rot_id. destruct q as [x y z w]. cbn [qx qy qz qw]. rnum. rewrite !andb_true_iff, !Reqb_true. intros (((-> & ->) & ->) & ->). reflexivity.
Qed.
Lemma rot_id_is : is_rot_id (rot_id : vec4 R) = true.
Proof. unfold is_rot_id, rot_id. cbn [qx qy qz qw]. rnum. rewrite !andb_true_iff, !Reqb_true. auto. Qed.

Definition clean (k : nat) (nodes : list (jnode R)) : Prop :=
  forall i d n, depth nodes i d -> (d < k)%nat -> nth_error nodes i = Some n -> jnSkin n = false -> jnRot n = rot_id.

Lemma keep_rot k nodes i nodes' f : is_forest nodes -> clean k nodes -> reset_at nodes i = Some (nodes', f) ->
  forall j d n n', depth nodes j d -> (d <= k)%nat -> nth_error nodes j = Some n -> nth_error nodes' j = Some n' -> jnSkin n = false -> jnRot n = rot_id -> jnRot n' = rot_id.
Proof.
  intros F C H j d n n' D L Hj Hj' Sk Rn. destruct (reset_at_spec _ _ _ _ H (fun n => forest_at nodes i n F)) as (_ & ni & Hi & [(_ & -> & _)|(_ & B1 & B2 & P)]); [congruence|].
  rewrite (P j n Hj) in Hj'. injection Hj' as <-. destruct (Nat.eq_dec j i) as [->|Ne]; [reflexivity|]. destruct (in_dec _ j _) as [Hin|_]; [|exact Rn]. exfalso.
  assert (Pa : parent_of nodes i j) by (exists ni; auto). inversion D as [? ? ? Hp|p ? ? d' ? Hp Dp]; subst; [apply (Hp i Pa)|].
  rewrite (one_parent nodes p i j (proj1 F) Hp Pa) in Dp. rewrite (C i d' ni Dp ltac:(lia) Hi B2), rot_id_is in B1. discriminate.
Qed.
Lemma set_rot_at nodes i nodes' f : is_forest nodes -> reset_at nodes i = Some (nodes', f) -> forall n', nth_error nodes' i = Some n' -> jnSkin n' = false -> jnRot n' = rot_id.
Proof.
  intros F H n' Hn' Sk. destruct (reset_at_spec _ _ _ _ H (fun n => forest_at nodes i n F)) as (_ & ni & Hi & [(_ & -> & B)|(_ & B1 & B2 & P)]).
  - rewrite Hi in Hn'. injection Hn' as ->. rewrite Sk, orb_false_r in B. apply is_rot_id_R. exact B.
  - rewrite (P i ni Hi) in Hn'. destruct (Nat.eq_dec i i) as [_|C]; [|exfalso; apply C; reflexivity]. injection Hn' as <-. reflexivity.
Qed.
Lemma reset_at_clean k nodes i nodes' f : is_forest nodes -> clean k nodes -> reset_at nodes i = Some (nodes', f) -> clean k nodes'.
Proof.
  intros F C H. pose proof (reset_at_shape _ _ _ _ F H) as SH. intros j d n' D L Hj' Sk. apply (depth_shape _ _ (shape_sym _ _ SH)) in D.
  destruct (shape_nth_r _ _ SH _ _ Hj') as (n & Hj & S1 & S2 & S3). apply (keep_rot k nodes i nodes' f F C H j d n n' D ltac:(lia) Hj Hj'); [congruence|].
  apply (C j d n D L Hj). congruence.
Qed.
Lemma reset_pass_clean k is_ : forall nodes f nodes' f', is_forest nodes -> clean k nodes -> reset_pass is_ nodes f = Some (nodes', f') ->
  Forall2 same_shape nodes nodes' /\ clean k nodes' /\
  forall j n n', depth nodes j k -> nth_error nodes j = Some n -> nth_error nodes' j = Some n' -> jnSkin n = false -> In j is_ \/ jnRot n = rot_id -> jnRot n' = rot_id.
Proof.
  induction is_ as [|i r IH]; intros nodes f nodes' f' F C H; cbn [reset_pass] in H.
  - injection H as <- <-. split; [clear; induction nodes; constructor; [apply same_shape_refl|assumption]|]. split; [exact C|]. intros j n n' D Hn Hn' Sk [[]|Hr]. congruence.
  - destruct (reset_at nodes i) as [[n1 f1]|] eqn:E; [|discriminate]. pose proof (reset_at_shape _ _ _ _ F E) as SH. pose proof (reset_at_clean _ _ _ _ _ F C E) as C1.
    destruct (IH n1 _ _ _ (forest_shape _ _ SH F) C1 H) as (SH2 & C2 & K). split; [eapply shape_trans; eassumption|]. split; [exact C2|].
    intros j n n' D Hn Hn' Sk Hin. destruct (shape_nth _ _ SH _ _ Hn) as (m & Hm & S1 & S2 & S3). apply (K j m n' (depth_shape _ _ SH _ _ D) Hm Hn' ltac:(congruence)).
    destruct Hin as [[->|Hin]|Hr].
    + right. apply (set_rot_at _ _ _ _ F E m Hm). congruence.
    + left. exact Hin.
    + right. apply (keep_rot k nodes i n1 f1 F C E j k n m D ltac:(lia) Hn Hm Sk Hr).
Qed.
Lemma reset_pass_still is_ : forall nodes f nodes', is_forest nodes -> reset_pass is_ nodes f = Some (nodes', false) ->
  nodes' = nodes /\ forall i n, In i is_ -> nth_error nodes i = Some n -> jnSkin n = false -> jnRot n = rot_id.
Proof.
  induction is_ as [|i r IH]; intros nodes f nodes' F H; cbn [reset_pass] in H; [injection H as <- ->; split; [reflexivity|intros ? ? []]|].
  destruct (reset_at nodes i) as [[n1 f1]|] eqn:E; [|discriminate].
  assert (Ff : f1 = false).
  { assert (G : forall l m b c, reset_pass l m b = Some (c, false) -> b = false).
    { clear. induction l as [|x l IHl]; intros m b c H; cbn in H; [congruence|]. destruct (reset_at m x) as [[m1 g]|]; [|discriminate]. apply IHl in H. apply orb_false_iff in H. tauto. }
    apply G in H. apply orb_false_iff in H. tauto. }
  destruct (reset_at_spec _ _ _ _ E (fun n => forest_at nodes i n F)) as (_ & ni & Hi & [(_ & -> & B)|(-> & _)]); [|discriminate].
  destruct (IH _ _ _ F H) as (-> & K). split; [reflexivity|]. intros j n [<-|Hin] Hn Sk; [|exact (K j n Hin Hn Sk)].
  rewrite Hi in Hn. injection Hn as ->. rewrite Sk, orb_false_r in B. apply is_rot_id_R. exact B.
Qed.
Lemma reset_passes_clean m : forall k nodes nodes', is_forest nodes -> clean k nodes -> reset_passes m nodes = Some nodes' -> clean (k + m) nodes'.
Proof.
  induction m as [|m IH]; intros k nodes nodes' F C H; cbn [reset_passes] in H; [injection H as <-; rewrite Nat.add_0_r; exact C|].
  destruct (reset_pass _ nodes false) as [[n1 [|]]|] eqn:E; [| |discriminate].
  - destruct (reset_pass_clean k _ _ _ _ _ F C E) as (SH & C1 & K). replace (k + S m)%nat with (S k + m)%nat by lia. apply (IH (S k) n1); [eapply forest_shape; eassumption| |exact H].
    intros i d n' D L Hn' Sk. destruct (Nat.eq_dec d k) as [->|Ne]; [|apply (C1 i d n' D ltac:(lia) Hn' Sk)].
    destruct (shape_nth_r _ _ SH _ _ Hn') as (n & Hn & S1 & S2 & S3). apply (K i n n' (depth_shape _ _ (shape_sym _ _ SH) _ _ D) Hn Hn' ltac:(congruence)). left. apply in_seq.
    assert (i < length nodes)%nat by (apply nth_error_Some; congruence). lia.
  - injection H as <-. destruct (reset_pass_still _ _ _ _ F E) as (-> & K). intros i d n _ _ Hn Sk. apply (K i n); [|exact Hn|exact Sk]. apply in_seq.
    assert (i < length nodes)%nat by (apply nth_error_Some; congruence). lia.
Qed.
Theorem reset_rotations nodes nodes' : is_forest nodes -> reset_joints nodes = Some nodes' ->
  forall i d n, depth nodes i d -> (d < 10)%nat -> nth_error nodes' i = Some n -> jnSkin n = false -> jnRot n = rot_id.
Proof.
  intros F H i d n D L Hn Sk. assert (C0 : clean 0 nodes) by (intros ? ? ? ? Hl; inversion Hl).
  pose proof (reset_passes_clean 10 0 nodes nodes' F C0 H) as C.
  assert (SH : Forall2 same_shape nodes nodes').
  { clear - F H. unfold reset_joints in H. revert nodes F H. generalize 10%nat as k. induction k as [|k IH]; intros nodes F H; cbn [reset_passes] in H.
    - injection H as <-. clear. induction nodes; constructor; [apply same_shape_refl|assumption].
    - destruct (reset_pass _ nodes false) as [[n1 f]|] eqn:E; [|discriminate]. assert (C0 : clean 0 nodes) by (intros ? ? ? ? Hl; inversion Hl).
      destruct (reset_pass_clean 0 _ _ _ _ _ F C0 E) as (SH & _ & _). destruct f; [|injection H as <-; exact SH].
      eapply shape_trans; [exact SH|]. apply IH; [eapply forest_shape; eassumption|exact H]. }
  apply (C i d n (depth_shape _ _ SH _ _ D) L Hn Sk).
Qed.

Lemma turn_children_total {T} {N : Num T} (a : vec4 T) cs : forall nodes, Forall (fun c => (c < length nodes)%nat) cs -> exists nodes', turn_children a cs nodes = Some nodes'.
Proof.
  induction cs as [|c r IH]; intros nodes F; cbn [turn_children]; [eauto|]. inversion F as [|? ? F1 F2]; subst.
  destruct (nth_error nodes c) eqn:E; [|apply nth_error_None in E; lia]. apply IH. rewrite list_set_length. exact F2.
Qed.
Theorem reset_total {T} {N : Num T} k : forall nodes : list (jnode T), is_forest nodes -> exists nodes', reset_passes k nodes = Some nodes'.
Proof.
  assert (P : forall is_ (nodes : list (jnode T)) f, is_forest nodes -> Forall (fun i => (i < length nodes)%nat) is_ -> exists r, reset_pass is_ nodes f = Some r /\ Forall2 same_shape nodes (fst r)).
  { induction is_ as [|i r IH]; intros nodes f F FI; cbn [reset_pass].
    - exists (nodes, f). split; [reflexivity|]. cbn. clear. induction nodes; constructor; [apply same_shape_refl|assumption].
    - inversion FI as [|? ? F1 F2]; subst. destruct (reset_at nodes i) as [[n1 f1]|] eqn:E.
      + pose proof (reset_at_shape _ _ _ _ F E) as SH. destruct (IH n1 (f || f1)%bool (forest_shape _ _ SH F)) as (x & Hx & Sx); [rewrite (shape_len _ _ SH); exact F2|].
        exists x. split; [exact Hx|eapply shape_trans; eassumption].
      + exfalso. unfold reset_at in E. destruct (nth_error nodes i) as [n|] eqn:Hn; [|apply nth_error_None in Hn; lia]. destruct (_ || _)%bool; [discriminate|].
        destruct (turn_children_total (jnRot n) (jnChildren n) (list_set nodes i (set_rot rot_id n))) as (l & Hl); [|rewrite Hl in E; discriminate].
        rewrite list_set_length. destruct F as (_ & F & _). rewrite Forall_forall in F. apply F. eapply nth_error_In. exact Hn. }
  induction k as [|k IH]; intros nodes F; cbn [reset_passes]; [eauto|].
  destruct (P (seq 0 (length nodes)) nodes false F) as ([n1 f] & -> & SH); [apply Forall_forall; intros i Hi; apply in_seq in Hi; lia|]. destruct f; [|eauto].
  apply IH. eapply forest_shape; eassumption.
Qed.

(** *** Skins *)
Definition plain_scale (n : jnode R) : Prop := jnScale n = mkV3 1 1 1.

Lemma mat_scale_1 : mat_scale 1 1 1 = mat_id :> mat4 R.
Proof. reflexivity. Qed.
Lemma local_rigid (n : jnode R) : plain_scale n -> local_mat n = mat_mul (mat_translate (vx (jnTrans n)) (vy (jnTrans n)) (vz (jnTrans n))) (mat_rot (jnRot n)).
Proof. unfold plain_scale, local_mat, mat_trs. intros ->. cbn [vx vy vz]. rewrite mat_scale_1, mat_mul_id_r. reflexivity. Qed.
Lemma translate_mul (a b c x y z : R) : mat_mul (mat_translate a b c) (mat_translate x y z) = mat_translate (a + x) (b + y) (c + z).
Proof. unfold mat_mul, mat_translate. mproj. rnum. comps; ring. Qed.
Lemma world_rigid (nodes : list (jnode R)) : Forall plain_scale nodes -> rigid_nodes nodes -> forall j m, world nodes j m ->
  exists x y z q, unit_quat q /\ m = mat_mul (mat_translate x y z) (mat_rot q).
Proof.
  intros PS RG j m W. unfold rigid_nodes in RG. rewrite Forall_forall in PS, RG. induction W as [i n Hn _|p i n m Hn _ _ IH].
  - apply nth_error_In in Hn. exists (vx (jnTrans n)), (vy (jnTrans n)), (vz (jnTrans n)), (jnRot n). split; [apply (RG n Hn)|apply local_rigid, PS, Hn].
  - apply nth_error_In in Hn. destruct IH as (x & y & z & q & U & ->). rewrite (local_rigid n (PS n Hn)).
    pose proof (rot_translate q (jnTrans n)) as RT. cbv zeta in RT. revert RT. generalize (mat_apply (mat_rot q) (jnTrans n)). intros w RT.
    exists (x + vx w), (y + vy w), (z + vz w), (qmul q (jnRot n)). destruct (RG n Hn) as (Un & _). split; [apply qmul_unit; assumption|].
    rewrite (mat_rot_mul _ _ U Un), <- translate_mul, <- !mat_mul_assoc. f_equal. rewrite !mat_mul_assoc, RT. reflexivity.
Qed.
Lemma place_rigid (x y z : R) q : place_of (mat_mul (mat_translate x y z) (mat_rot q)) = mkV3 x y z.
Proof. unfold place_of, mat_mul, mat_translate, mat_rot. mproj. rnum. comps; ring. Qed.

Lemma world_plain (nodes : list (jnode R)) : NoDup (concat (map (@jnChildren R) nodes)) -> Forall plain_scale nodes -> Forall (fun n => jnChildren n <> [] -> jnSkin n = false) nodes ->
  clean 10 nodes -> forall j m, world nodes j m -> forall d n, depth nodes j d -> (d < 10)%nat -> nth_error nodes j = Some n -> jnSkin n = false -> exists x y z, m = mat_translate x y z.
Proof.
  intros ND PS SK C j m W. rewrite Forall_forall in PS, SK.
  assert (LP : forall i d n, depth nodes i d -> (d < 10)%nat -> nth_error nodes i = Some n -> jnSkin n = false -> local_mat n = mat_translate (vx (jnTrans n)) (vy (jnTrans n)) (vz (jnTrans n))).
  { intros i d n D L Hn Hs. rewrite (local_rigid n) by (apply PS; eapply nth_error_In; exact Hn). rewrite (C i d n D L Hn Hs), mat_rot_id, mat_mul_id_r. reflexivity. }
  induction W as [i n0 Hn0 _|p i n0 m Hn0 Hp W IH]; intros d n D L Hn Hs; rewrite Hn in Hn0; injection Hn0 as <-.
  - eexists _, _, _. eapply LP; eassumption.
  - rewrite (LP i d n D L Hn Hs). inversion D as [? ? ? Hr|p' ? ? d' ? Hp' D']; subst; [exfalso; apply (Hr p Hp)|]. rewrite (one_parent nodes p' p i ND Hp' Hp) in D'.
    destruct Hp as (np & Hnp & Hin). destruct (IH d' np D' ltac:(lia) Hnp) as (x & y & z & ->).
    { apply SK; [eapply nth_error_In; exact Hnp|]. intros E0. rewrite E0 in Hin. destruct Hin. }
    rewrite translate_mul. eauto.
Qed.

Lemma rot_inv_l (q : vec4 R) : unit_quat q -> mat_mul (mat_rot (qinv q)) (mat_rot q) = mat_id.
Proof.
  intros U. rewrite <- (mat_rot_mul (qinv q) q (qinv_unit q U) U). replace (qmul (qinv q) q) with (rot_id : vec4 R); [apply mat_rot_id|].
  unfold unit_quat in U. destruct q as [x y z w]. unfold qmul, qinv, rot_id. mproj. rnum. comps; try ring. rewrite <- U. ring.
Qed.
Lemma reset_bind_inverse (x y z : R) q b : unit_quat q -> mat_mul (mat_mul (mat_translate x y z) (mat_rot q)) b = mat_id -> reset_bind b = mat_translate (- x) (- y) (- z).
Proof.
  intros U H. assert (Eb : b = mat_mul (mat_rot (qinv q)) (mat_translate (- x) (- y) (- z))).
  { rewrite <- (mat_mul_id_l b). rewrite <- (rot_inv_l q U) at 1. rewrite <- (mat_mul_id_l (mat_rot q)) at 1.
    replace (mat_id : mat4 R) with (mat_mul (mat_translate (- x) (- y) (- z)) (mat_translate x y z)) at 1
      by (rewrite translate_mul; replace (- x + x) with 0 by ring; replace (- y + y) with 0 by ring; replace (- z + z) with 0 by ring; reflexivity).
    rewrite <- !mat_mul_assoc in H. rewrite <- !mat_mul_assoc. rewrite H, mat_mul_id_r. reflexivity. }
  subst b. clear H. unfold reset_bind. destruct q as [a b c w]. unfold unit_quat in U.
  unfold mat_mul, mat_rot, qinv, mat_translate. mproj. rnum.
  assert (Hw : w * w = 1 - a * a - b * b - c * c) by (rewrite <- U; ring).
  comps; try reflexivity; ring [Hw].
Qed.

Theorem reset_skins nodes nodes' : is_forest nodes -> rigid_nodes nodes -> Forall plain_scale nodes -> Forall (fun n => jnChildren n <> [] -> jnSkin n = false) nodes ->
  reset_joints nodes = Some nodes' ->
  forall j d n m b, nth_error nodes j = Some n -> jnSkin n = false -> depth nodes j d -> (d < 10)%nat -> world nodes j m -> mat_mul m b = mat_id ->
  exists m', world nodes' j m' /\ mat_mul m' (reset_bind b) = mat_id.
Proof.
  intros F RG PS SK H j d n m b Hn Hs D L W E. destruct (reset_passes_moves 10 nodes nodes' F RG H) as (SH & RG' & MV).
  destruct (MV j m W) as (m' & W' & Ep & _). exists m'. split; [exact W'|].
  assert (C : clean 10 nodes'). { intros i d' n' D' L' Hn' Hs'. apply (reset_rotations nodes nodes' F H i d' n' (depth_shape _ _ (shape_sym _ _ SH) _ _ D') L' Hn' Hs'). }
  pose proof (forest_shape _ _ SH F) as F'. destruct (shape_nth _ _ SH _ _ Hn) as (n' & Hn' & _ & _ & Hs').
  destruct (world_plain nodes' (proj1 F')) with (j := j) (m := m') (d := d) (n := n') as (x & y & z & ->); try assumption.
  - apply Forall_forall. intros a Ha. apply In_nth_error in Ha as (i & Hi). destruct (shape_nth_r _ _ SH _ _ Hi) as (a0 & Hi0 & S1 & _). unfold plain_scale. rewrite S1.
    rewrite Forall_forall in PS. apply PS. eapply nth_error_In. exact Hi0.
  - apply Forall_forall. intros a Ha. apply In_nth_error in Ha as (i & Hi). destruct (shape_nth_r _ _ SH _ _ Hi) as (a0 & Hi0 & _ & S2 & S3). rewrite S2, S3.
    rewrite Forall_forall in SK. apply SK. eapply nth_error_In. exact Hi0.
  - apply (depth_shape _ _ SH). exact D.
  - congruence.
  - destruct (world_rigid nodes PS RG j m W) as (x0 & y0 & z0 & q & U & ->). rewrite (reset_bind_inverse x0 y0 z0 q b U E).
    rewrite place_rigid in Ep. unfold place_of, mat_translate in Ep. cbn [m12 m13 m14] in Ep. injection Ep as -> -> ->.
    rewrite translate_mul. replace (x0 + - x0) with 0 by ring. replace (y0 + - y0) with 0 by ring. replace (z0 + - z0) with 0 by ring. reflexivity.
Qed.

(** *** Parents listed first: one pass is enough *)
Definition parents_first {T} (nodes : list (jnode T)) : Prop := forall p i, parent_of nodes p i -> (p < i)%nat.
Definition clean_to (k : nat) (nodes : list (jnode R)) : Prop := forall i n, (i < k)%nat -> nth_error nodes i = Some n -> jnSkin n = false -> jnRot n = rot_id.
Lemma reset_at_to i nodes nodes' f : is_forest nodes -> parents_first nodes -> clean_to i nodes -> reset_at nodes i = Some (nodes', f) -> clean_to (S i) nodes'.
Proof.
  intros F PF C H j n Hj Hn Sk. destruct (Nat.eq_dec j i) as [->|Ne]; [apply (set_rot_at _ _ _ _ F H n Hn Sk)|].
  destruct (reset_at_spec _ _ _ _ H (fun n => forest_at nodes i n F)) as (_ & ni & Hi & [(_ & -> & _)|(_ & B1 & B2 & P)]); [apply (C j n ltac:(lia) Hn Sk)|].
  pose proof (reset_at_shape _ _ _ _ F H) as SH. destruct (shape_nth_r _ _ SH _ _ Hn) as (m & Hm & _ & _ & S3). rewrite (P j m Hm) in Hn. injection Hn as <-.
  destruct (Nat.eq_dec j i) as [E|_]; [congruence|]. destruct (in_dec Nat.eq_dec j (jnChildren ni)) as [Hin|_].
  - exfalso. assert (i < j)%nat by (apply PF; exists ni; auto). lia.
  - apply (C j m ltac:(lia) Hm). congruence.
Qed.
Lemma first_shape {T} (nodes nodes' : list (jnode T)) : Forall2 same_shape nodes nodes' -> parents_first nodes -> parents_first nodes'.
Proof. intros SH PF p i Hp. apply PF. apply (parent_shape _ _ (shape_sym _ _ SH)). exact Hp. Qed.
Lemma reset_pass_to m : forall i nodes f nodes' f', is_forest nodes -> parents_first nodes -> clean_to i nodes -> reset_pass (seq i m) nodes f = Some (nodes', f') -> clean_to (i + m) nodes'.
Proof.
  induction m as [|m IH]; intros i nodes f nodes' f' F PF C H; cbn [seq reset_pass] in H.
  - injection H as <- <-. rewrite Nat.add_0_r. exact C.
  - destruct (reset_at nodes i) as [[n1 f1]|] eqn:E; [|discriminate]. replace (i + S m)%nat with (S i + m)%nat by lia. pose proof (reset_at_shape _ _ _ _ F E) as SH.
    eapply IH; [eapply forest_shape; eassumption|eapply first_shape; eassumption|eapply reset_at_to; eassumption|exact H].
Qed.
Lemma clean_still is_ : forall nodes nodes' f f', is_forest nodes -> clean_to (length nodes) nodes -> reset_pass is_ nodes f = Some (nodes', f') -> nodes' = nodes.
Proof.
  induction is_ as [|i r IH]; intros nodes nodes' f f' F C H; cbn [reset_pass] in H; [injection H as <- <-; reflexivity|].
  destruct (reset_at nodes i) as [[n1 f1]|] eqn:E; [|discriminate]. destruct (reset_at_spec _ _ _ _ E (fun n => forest_at nodes i n F)) as (_ & ni & Hi & [(_ & -> & _)|(_ & B1 & B2 & P)]).
  - eapply IH; eassumption.
  - exfalso. rewrite (C i ni) in B1; [|apply nth_error_Some; congruence|exact Hi|exact B2]. rewrite rot_id_is in B1. discriminate.
Qed.
Lemma passes_still k : forall nodes nodes', is_forest nodes -> clean_to (length nodes) nodes -> reset_passes k nodes = Some nodes' -> nodes' = nodes.
Proof.
  induction k as [|k IH]; intros nodes nodes' F C H; cbn [reset_passes] in H; [congruence|]. destruct (reset_pass _ nodes false) as [[n1 f]|] eqn:E; [|discriminate].
  rewrite (clean_still _ _ _ _ _ F C E) in *. destruct f; [apply IH; assumption|congruence].
Qed.
Theorem reset_first nodes nodes' : is_forest nodes -> parents_first nodes -> reset_joints nodes = Some nodes' -> forall i n, nth_error nodes' i = Some n -> jnSkin n = false -> jnRot n = rot_id.
Proof.
  intros F PF H i n Hn Sk. unfold reset_joints in H. change 10%nat with (S 9) in H. cbn [reset_passes] in H. destruct (reset_pass (seq 0 (length nodes)) nodes false) as [[n1 f]|] eqn:E; [|discriminate].
  pose proof (reset_pass_to (length nodes) 0 nodes _ _ _ F PF ltac:(intros ? ? Hl; inversion Hl) E) as C. cbn [Nat.add] in C.
  assert (C0 : clean 0 nodes) by (intros ? ? ? ? Hl; inversion Hl). destruct (reset_pass_clean 0 _ _ _ _ _ F C0 E) as (SH & _ & _). pose proof (shape_len _ _ SH) as L.
  assert (nodes' = n1). { destruct f; [|injection H as <-; reflexivity]. eapply (passes_still 9); [eapply forest_shape; eassumption| |exact H]. first [rewrite L|rewrite <- L]; exact C. }
  subst nodes'. apply (C i n); [|exact Hn|exact Sk]. assert (i < length n1)%nat by (apply nth_error_Some; congruence). lia.
Qed.
