(** [BoneAdjustX] (C84). *)
From Coq Require Import String List ZArith Reals Lra Lia Bool.
From Verif.Model Require Import Num NumR Vec Matrix Euler Mqo MqoDoc MqoTransform.
From Verif.Spec Require Import GeomSpec BoneSpec TransformSpec.
From Verif.Proofs Require Import MatrixLemmas EulerProofs BoneProofs BoneTurnSums BoneTurnProofs.
Import ListNotations.
Local Open Scope R_scope.

Lemma atan2_range y x : - PI <= atan2 y x <= PI.
Proof.
  assert (P := PI_RGT_0). unfold atan2. destruct (Reqb y 0); [destruct (Rleb 0 x); lra|]. destruct (Reqb x 0); [destruct (Rltb 0 y); lra|].
  pose proof (atan_bound (y / x)) as B. cbv zeta. destruct (Rltb x 0); [|lra]. destruct (Rleb (atan (y / x)) 0) eqn:Q; [apply Rleb_true in Q; lra|]. assert (~ atan (y / x) <= 0) by (intros X; apply Rleb_true in X; congruence). lra.
Qed.
Lemma level_turn v : turn_z (level_angle v) v = levelled v.
Proof.
  destruct v as [x y z]. unfold levelled, turn_z, level_angle. cbn [vx vy vz]. set (r := sqrt (x * x + y * y)). assert (Hr : 0 <= r) by apply sqrt_pos. assert (Er : y * y + x * x = r * r) by (unfold r; rewrite sqrt_sqrt; nra).
  assert (P := PI_RGT_0). destruct (Req_dec r 0) as [E|E].
  - assert (x = 0 /\ y = 0) as [-> ->] by nra. destruct (Rlt_dec 0 0); [lra|]. rewrite E. comps; ring.
  - destruct (atan2_spec y x r) as [S C]; [lra|exact Er|]. assert (G := atan2_range y x). cbv zeta. destruct (Rltb (Rabs (atan2 y x)) (PI / 2)) eqn:Q.
    + apply Rltb_true in Q. assert (Hc : 0 < cos (atan2 y x)) by (apply cos_gt_0; unfold Rabs in Q; destruct (Rcase_abs _); lra). rewrite C in Hc.
      assert (Hx : 0 < x) by (apply Rmult_lt_reg_r with (/ r); [apply Rinv_0_lt_compat; lra|unfold Rdiv in Hc; lra]). destruct (Rlt_dec 0 x); [|contradiction]. rewrite cos_neg, sin_neg, S, C. comps; [|field; exact E|reflexivity].
      field_simplify; [|exact E]. replace (x ^ 2 + y ^ 2) with (r * r) by lra. field. exact E.
    + apply Rltb_false in Q. assert (Hc : cos (atan2 y x) <= 0).
      { unfold Rabs in Q. destruct (Rcase_abs (atan2 y x)); [rewrite <- cos_neg; apply cos_le_0; lra|apply cos_le_0; lra]. }
      rewrite C in Hc. assert (Hx : ~ 0 < x) by (intros Hx; assert (0 < x / r) by (apply Rdiv_lt_0_compat; lra); lra). destruct (Rlt_dec 0 x); [contradiction|].
      replace (PI - atan2 y x) with (- atan2 y x + PI) by ring. rewrite neg_cos, neg_sin, cos_neg, sin_neg, S, C. comps; [|field; exact E|reflexivity].
      field_simplify; [|exact E]. replace (- x ^ 2 - y ^ 2) with (- (r * r)) by lra. field. exact E.
Qed.
Lemma level_again v : level_angle (levelled v) = 0.
Proof.
  unfold level_angle, levelled. cbn [vx vy vz]. set (r := sqrt _). assert (Hr : 0 <= r) by apply sqrt_pos. assert (P := PI_RGT_0). unfold atan2. rewrite (proj2 (Reqb_true 0 0) eq_refl). cbv zeta. destruct (Rlt_dec 0 (vx v)) as [H|H].
  - rewrite (proj2 (Rleb_true 0 r) Hr). rewrite Rabs_R0. rewrite (proj2 (Rltb_true 0 (PI / 2))) by lra. ring.
  - destruct (Rleb 0 (- r)) eqn:Q.
    + rewrite Rabs_R0. rewrite (proj2 (Rltb_true 0 (PI / 2))) by lra. ring.
    + rewrite Rabs_right by lra. rewrite (proj2 (Rltb_false PI (PI / 2))) by lra. ring.
Qed.
Definition z_turn (a : R) : vec4 R := euler_to_quat (mkE (mkV3 0 0 a) XYZ).
Lemma z_turn_apply a v : qapply (z_turn a) v = turn_z a v.
Proof. unfold z_turn. rewrite euler_to_quat_turns. mproj. unfold turn_x, turn_y, turn_z; mproj. rewrite sin_0, cos_0. comps; ring. Qed.
Lemma turn_z_len a v : v3lensqr (turn_z a v) = v3lensqr v.
Proof. rewrite <- z_turn_apply. exact (qapply_dot (z_turn a) v v (euler_to_quat_unit _)). Qed.

Definition lc_step (base : bone R) (acc : R * option (vec3 R)) (b : bone R) :=
  if (bParent b =? bID base)%Z then let v := v3sub (bPos b) (bPos base) in if Rltb (fst acc) (v3lensqr v) then (v3lensqr v, Some v) else acc else acc.
Lemma longest_inv base bones : forall pre acc,
  (snd acc = None -> fst acc = 0 /\ forall x, In x pre -> bParent x = bID base -> v3lensqr (v3sub (bPos x) (bPos base)) <= 0) ->
  (forall v, snd acc = Some v -> fst acc = v3lensqr v /\ exists i c, v = v3sub (bPos c) (bPos base) /\ farthest_child pre base i c) ->
  let r := fold_left (lc_step base) bones acc in
  (snd r = None -> forall x, In x (pre ++ bones) -> bParent x = bID base -> v3lensqr (v3sub (bPos x) (bPos base)) <= 0) /\
  (forall v, snd r = Some v -> exists i c, v = v3sub (bPos c) (bPos base) /\ farthest_child (pre ++ bones) base i c).
Proof.
  induction bones as [|b l IH]; intros pre acc H0 H1; cbn [fold_left].
  - rewrite app_nil_r. split; [intros E; apply (H0 E)|intros v E; apply (H1 v E)].
  - replace (pre ++ b :: l) with ((pre ++ [b]) ++ l) by (rewrite <- app_assoc; reflexivity). apply IH.
    + intros E. unfold lc_step in *. destruct (Z.eqb_spec (bParent b) (bID base)) as [Eb|Eb].
      * cbv zeta in *. destruct (Rltb _ _) eqn:Q; [discriminate|]. destruct (H0 E) as [F G]. split; [exact F|]. intros x Hx Ex. apply in_app_or in Hx as [Hx|[<-|[]]]; [apply G; assumption|]. apply Rltb_false in Q. lra.
      * destruct (H0 E) as [F G]. split; [exact F|]. intros x Hx Ex. apply in_app_or in Hx as [Hx|[<-|[]]]; [apply G; assumption|contradiction].
    + intros v E. unfold lc_step in *. destruct (Z.eqb_spec (bParent b) (bID base)) as [Eb|Eb].
      * cbv zeta in *. destruct (Rltb _ _) eqn:Q.
        { injection E as <-. cbn [fst snd]. split; [reflexivity|]. exists (length pre), b. split; [reflexivity|]. apply Rltb_true in Q. split; [rewrite nth_error_app2, Nat.sub_diag by lia; reflexivity|]. split; [exact Eb|].
          destruct (snd acc) as [w|] eqn:S.
          - destruct (H1 w eq_refl) as (F & i & c & -> & _ & _ & Pc & G). rewrite F in Q. split; [lra|]. intros x Hx Ex. apply in_app_or in Hx as [Hx|[<-|[]]]; [|lra]. specialize (G x Hx Ex). lra.
          - destruct (H0 eq_refl) as [F G]. rewrite F in Q. split; [lra|]. intros x Hx Ex. apply in_app_or in Hx as [Hx|[<-|[]]]; [|lra]. specialize (G x Hx Ex). lra. }
        apply Rltb_false in Q. destruct (H1 v E) as (F & i & c & -> & A & B & Pc & G). split; [exact F|]. exists i, c. split; [reflexivity|]. split; [rewrite nth_error_app1 by (apply nth_error_Some; congruence); exact A|]. split; [exact B|]. split; [exact Pc|].
        intros x Hx Ex. apply in_app_or in Hx as [Hx|[<-|[]]]; [apply G; assumption|]. lra.
      * destruct (H1 v E) as (F & i & c & -> & A & B & Pc & G). split; [exact F|]. exists i, c. split; [reflexivity|]. split; [rewrite nth_error_app1 by (apply nth_error_Some; congruence); exact A|]. split; [exact B|]. split; [exact Pc|].
        intros x Hx Ex. apply in_app_or in Hx as [Hx|[<-|[]]]; [apply G; assumption|contradiction].
Qed.
Lemma longest_spec base bones :
  (longest_child base bones = None -> forall x, In x bones -> bParent x = bID base -> v3lensqr (v3sub (bPos x) (bPos base)) <= 0) /\
  (forall v, longest_child base bones = Some v -> exists i c, v = v3sub (bPos c) (bPos base) /\ farthest_child bones base i c).
Proof. apply (longest_inv base bones [] (0, None)); [intros _; split; [reflexivity|intros x []]|discriminate]. Qed.
(** If the children are turned about the bone, the longest vector is the turned one. *)
Lemma longest_turned a base base' bones bones' : bID base' = bID base ->
  Forall2 (fun b b' => bParent b' = bParent b /\ (bParent b = bID base -> v3sub (bPos b') (bPos base') = turn_z a (v3sub (bPos b) (bPos base)))) bones bones' ->
  longest_child base' bones' = option_map (turn_z a) (longest_child base bones).
Proof.
  intros Eid F. unfold longest_child. fold (lc_step base). fold (lc_step base').
  assert (G : forall acc acc', fst acc' = fst acc -> snd acc' = option_map (turn_z a) (snd acc) -> snd (fold_left (lc_step base') bones' acc') = option_map (turn_z a) (snd (fold_left (lc_step base) bones acc))).
  { induction F as [|b b' l l' [Ep Ev] _ IH]; intros acc acc' E1 E2; [exact E2|]. cbn [fold_left]. unfold lc_step at 2 4. rewrite Ep, Eid. destruct (Z.eqb_spec (bParent b) (bID base)) as [Eb|Eb]; [|apply IH; assumption].
    rewrite (Ev Eb), turn_z_len, E1. cbv zeta. destruct (Rltb _ _); [apply IH; reflexivity|apply IH; assumption]. }
  apply G; reflexivity.
Qed.
Lemma turned_sub pos rot p : v3sub (turned pos rot p) pos = qapply rot (v3sub p pos).
Proof. unfold turned. destruct (qapply rot (v3sub p pos)), pos. unfold v3add, v3sub; mproj; rnum; comps; ring. Qed.
Lemma turned_id pos v : turned pos (z_turn 0) v = v.
Proof. unfold turned. rewrite z_turn_apply. unfold turn_z. rewrite sin_0, cos_0. destruct pos, v. unfold v3add, v3sub; mproj; rnum; comps; ring. Qed.
Lemma between_same w v : between w v v = v.
Proof. destruct v. unfold between, v3add, v3scale; mproj; rnum; comps; ring. Qed.
Lemma index_list_snd {A} (l : list A) : map snd (index_list l) = l.
Proof. apply Mmd2MqoProofs.nth_error_ext. intros i. rewrite nth_error_map, index_list_nth. destruct (nth_error l i); reflexivity. Qed.
(** Turning by nothing. *)
Lemma turn_nothing base d d' : bone_transform base (z_turn 0) d = Some d' -> mdObjects d' = mdObjects d /\ mdBones d' = mdBones d.
Proof.
  intros E. destruct (turn_inv _ _ _ _ E) as (b0 & Eb & _ & ->). cbn [mdObjects mdBones]. assert (T : forall w v, turn_about (bPos b0) (z_turn 0) w v = v) by (intros w v; rewrite turn_about_between, turned_id; apply between_same). split.
  - rewrite <- (index_list_snd (mdObjects d)) at 2. apply map_ext. intros [i o]. unfold turn_object. cbn [fst snd]. rewrite (map_ext _ snd), index_list_snd; [destruct o; reflexivity|]. intros [k v]. cbn [fst snd]. destruct (weight_at _ _ _); [apply T|reflexivity].
  - rewrite <- (index_list_snd (mdBones d)) at 2. apply map_ext. intros [i b]. cbn [fst snd]. destruct (nmem _ _); [rewrite T; destruct b; reflexivity|reflexivity].
Qed.
