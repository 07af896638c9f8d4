(** C84: -autotpose makes arms level. *)
From Coq Require Import String List ZArith Reals Lra Lia Bool.
From Verif.Model Require Import Num NumR Vec Matrix Euler Mqo MqoDoc MqoTransform.
From Verif.Spec Require Import GeomSpec BoneSpec TransformSpec.
From Verif.Proofs Require Import MatrixLemmas EulerProofs BoneProofs BoneTurnSums BoneTurnProofs LevelProofs TposeProofs.
Import ListNotations.
Local Open Scope R_scope.

(** The farthest child ends up level with the bone, at the same distance and depth and on the side it was; the rest is a turn about the bone (C83). *)
Theorem C84_level_partial : forall base d d' b0 v, NoDup (map (@bID R) (mdBones d)) -> (forall i p, child_of (mdBones d) i p -> (p < i)%nat \/ p = base) ->
  nth_error (mdBones d) base = Some b0 -> (0 < bID b0)%Z -> longest_child b0 (mdBones d) = Some v -> bone_adjust_x base d = Some d' ->
  exists a i c c', farthest_child (mdBones d) b0 i c /\ nth_error (mdBones d') i = Some c' /\ bPos c' = v3add (bPos b0) (levelled (v3sub (bPos c) (bPos b0))) /\
  exists rot, (forall w, qapply rot w = turn_z a w) /\ bone_transform base rot d = Some d'.
Proof.
  intros base d d' b0 v N P Eb Hid El E. destruct (proj2 (longest_spec b0 (mdBones d)) v El) as (i & c & Ev & Fc). unfold bone_adjust_x in E. rewrite Eb, El in E. fold (z_turn (level_angle v)) in E.
  exists (level_angle v), i, c. pose proof Fc as (Ec & Ep & _ & _). eexists. split; [exact Fc|]. split; [apply (turn_bones base _ d d' b0 E Eb i c Ec)|]. split.
  - assert (M : nmem i (select_bones (mdBones d) base) = true).
    { apply nmem_in. apply select_complete; [exact N|exact P|]. apply (desc_step _ _ i base); [|apply desc_self]. exists c, b0. repeat split; auto. rewrite Ep. exact Hid. }
    rewrite M. cbn [bPos set_pos]. unfold turned. rewrite z_turn_apply, <- Ev, level_turn. reflexivity.
  - exists (z_turn (level_angle v)). split; [apply z_turn_apply|exact E].
Qed.
Print Assumptions C84_level_partial.
(** Length and depth, in numbers. *)
Theorem C84_levelled : forall v, vy (levelled v) = 0 /\ vz (levelled v) = vz v /\ v3lensqr (levelled v) = v3lensqr v /\ (0 < vx v -> 0 <= vx (levelled v)) /\ (vx v < 0 -> vx (levelled v) <= 0).
Proof.
  intros v. split; [reflexivity|]. split; [reflexivity|]. split; [rewrite <- level_turn; apply turn_z_len|]. unfold levelled. cbn [vx]. pose proof (sqrt_pos (vx v * vx v + vy v * vy v)). split; intros H1; destruct (Rlt_dec 0 (vx v)); lra.
Qed.
Print Assumptions C84_levelled.
(** Without a child that is elsewhere nothing happens. *)
Theorem C84_none : forall base d b0, nth_error (mdBones d) base = Some b0 -> (forall x, In x (mdBones d) -> bParent x = bID b0 -> bPos x = bPos b0) -> bone_adjust_x base d = Some d.
Proof.
  intros base d b0 Eb H. unfold bone_adjust_x. rewrite Eb. destruct (longest_child b0 (mdBones d)) as [v|] eqn:E; [|reflexivity]. exfalso.
  destruct (proj2 (longest_spec b0 (mdBones d)) v E) as (i & c & -> & Ec & Ep & L & _). rewrite (H c (nth_error_In _ _ Ec) Ep) in L. destruct (bPos b0) as [x y z]. unfold v3lensqr, v3dot, v3sub in L; mproj; rnum. lra.
Qed.
Print Assumptions C84_none.
(** Doing it again changes nothing. *)
Theorem C84_again_partial : forall base d d' d'' b0, NoDup (map (@bID R) (mdBones d)) -> (forall i p, child_of (mdBones d) i p -> (p < i)%nat \/ p = base) ->
  nth_error (mdBones d) base = Some b0 -> (0 < bID b0)%Z -> bone_adjust_x base d = Some d' -> bone_adjust_x base d' = Some d'' -> mdObjects d'' = mdObjects d' /\ mdBones d'' = mdBones d'.
Proof.
  intros base d d' d'' b0 N P Eb Hid E1 E2. unfold bone_adjust_x in E1. rewrite Eb in E1. destruct (longest_child b0 (mdBones d)) as [v|] eqn:El.
  2:{ injection E1 as <-. unfold bone_adjust_x in E2. rewrite Eb, El in E2. injection E2 as <-. auto. }
  fold (z_turn (level_angle v)) in E1. pose proof (turn_bones base _ d d' b0 E1 Eb base b0 Eb) as Eb'. assert (Mb : nmem base (select_bones (mdBones d) base) = true) by (apply nmem_in, (select_sound (mdBones d) base)).
  rewrite Mb in Eb'. set (a := level_angle v) in *. set (b0' := set_pos b0 _) in Eb'.
  assert (Pb : bPos b0' = bPos b0).
  { unfold b0'. cbn [bPos set_pos]. unfold turned. rewrite z_turn_apply. destruct (bPos b0) as [x y z]. unfold turn_z, v3add, v3sub; mproj; rnum; comps; ring. }
  assert (L : longest_child b0' (mdBones d') = Some (levelled v)).
  { rewrite (longest_turned a b0 b0' (mdBones d) (mdBones d')); [rewrite El; cbn [option_map]; unfold a; rewrite level_turn; reflexivity|reflexivity|].
    destruct (turn_counts _ _ _ _ E1) as (_ & Len & _).
    assert (G : forall j b, nth_error (mdBones d) j = Some b -> exists b', nth_error (mdBones d') j = Some b' /\ bParent b' = bParent b /\ (bParent b = bID b0 -> v3sub (bPos b') (bPos b0') = turn_z a (v3sub (bPos b) (bPos b0)))).
    { intros j b Ej. eexists. split; [apply (turn_bones base _ d d' b0 E1 Eb j b Ej)|]. split; [reflexivity|]. intros Ep. cbn [bPos set_pos]. rewrite Pb.
      assert (M : nmem j (select_bones (mdBones d) base) = true).
      { apply nmem_in. apply select_complete; [exact N|exact P|]. apply (desc_step _ _ j base); [|apply desc_self]. exists b, b0. repeat split; auto. rewrite Ep. exact Hid. }
      rewrite M, turned_sub, z_turn_apply. reflexivity. }
    clear - G Len. revert G Len. generalize (mdBones d) (mdBones d'). intros l l'. revert l'. induction l as [|b l IH]; intros [|b' l'] G Len; try discriminate; constructor.
    - destruct (G 0%nat b eq_refl) as (x & Ex & Hx). injection Ex as <-. exact Hx.
    - apply IH; [|injection Len as Len; exact Len]. intros j c Ej. apply (G (S j) c Ej). }
  unfold bone_adjust_x in E2. rewrite Eb', L, level_again in E2. exact (turn_nothing base d' d'' E2).
Qed.
Print Assumptions C84_again_partial.
(** Refuted: an arm that hangs straight down from the shoulder at (1,0,0) is turned into the body instead of away from it. *)
Definition hanging : mdoc := mkMDoc [] [mkBone 1 "shoulder" 0 (mkV3 1 0 0) []; mkBone 2 "hand" 1 (mkV3 1 (-1) 0) []] [] None.
Lemma hanging_vec : longest_child (mkBone 1 "shoulder" 0 (mkV3 1 0 0) []) (mdBones hanging) = Some (mkV3 0 (-1) 0).
Proof.
  unfold longest_child, hanging. cbn [mdBones fold_left bParent bID]. change (0 =? 1)%Z with false. change (1 =? 1)%Z with true. cbn [fst bPos]. cbv zeta.
  assert (V : v3sub (mkV3 1 (-1) 0) (mkV3 1 0 0) = mkV3 0 (-1) 0) by (unfold v3sub; mproj; rnum; comps; ring). rewrite V. assert (L : v3lensqr (mkV3 0 (-1) 0) = 1) by (unfold v3lensqr, v3dot; mproj; rnum; ring). rewrite L.
  rewrite (proj2 (Rltb_true 0 1)) by lra. reflexivity.
Qed.
Theorem C84_side_refuted : exists d', bone_adjust_x 0 hanging = Some d' /\ map (@bPos R) (mdBones d') = [mkV3 1 0 0; mkV3 0 0 0].
Proof.
  destruct (proj2 (turn_total 0 (z_turn (level_angle (mkV3 0 (-1) 0))) hanging (conj (NoDup_nil _) (conj (NoDup_nil _) (conj (NoDup_nil _) (fun m t (H : In m []) _ => match H with end)))))) as [d' E].
  { split; [cbn; lia|]. intros j b bw o vw _ _ _ _ []. }
  exists d'. split; [unfold bone_adjust_x; cbn [hanging mdBones nth_error]; pose proof hanging_vec as V; cbn [hanging mdBones] in V; rewrite V; exact E|].
  pose proof (turn_bones 0 _ hanging d' _ E eq_refl 0 _ eq_refl) as A. pose proof (turn_bones 0 _ hanging d' _ E eq_refl 1 _ eq_refl) as B. destruct (turn_counts _ _ _ _ E) as (_ & Len & _).
  change (nmem 0 (select_bones (mdBones hanging) 0)) with true in A. change (nmem 1 (select_bones (mdBones hanging) 0)) with true in B. cbn [bPos] in A, B.
  assert (T : forall p, turned (mkV3 1 0 0) (z_turn (level_angle (mkV3 0 (-1) 0))) p = v3add (mkV3 1 0 0) (turn_z (level_angle (mkV3 0 (-1) 0)) (v3sub p (mkV3 1 0 0)))) by (intros p; unfold turned; rewrite z_turn_apply; reflexivity). rewrite T in A, B.
  assert (V : v3sub (mkV3 1 (-1) 0) (mkV3 1 0 0) = mkV3 0 (-1) 0) by (unfold v3sub; mproj; rnum; comps; ring). rewrite V, level_turn in B.
  assert (Lv : levelled (mkV3 0 (-1) 0) = mkV3 (-1) 0 0).
  { unfold levelled; mproj. destruct (Rlt_dec 0 0); [lra|]. replace (0 * 0 + -1 * -1) with 1 by ring. rewrite sqrt_1. comps; ring. }
  rewrite Lv in B. destruct (mdBones d') as [|x [|y [|? ?]]]; try discriminate Len. injection A as ->. injection B as ->. cbn [map bPos set_pos]. unfold turn_z, v3add, v3sub; mproj; rnum. f_equal; [comps; ring|]. f_equal. comps; ring.
Qed.
Print Assumptions C84_side_refuted.
(** The hypotheses of the theorems are met by this arm too. *)
Example C84_example : NoDup (map (@bID R) (mdBones hanging)) /\ (forall i p, child_of (mdBones hanging) i p -> (p < i)%nat \/ p = 0%nat) /\ longest_child (mkBone 1 "shoulder" 0 (mkV3 1 0 0) []) (mdBones hanging) = Some (mkV3 0 (-1) 0).
Proof.
  split; [repeat constructor; cbn; lia|]. split; [|apply hanging_vec]. intros i p (b & pb & Ei & Ep & L & E). left. destruct i as [|[|i]]; [injection Ei as <-; cbn in L; lia| |destruct i; discriminate]. injection Ei as <-.
  destruct p as [|[|p]]; [lia|injection Ep as <-; discriminate E|destruct p; discriminate].
Qed.

(** The option: every bone whose name matches is made level with its farthest child, if none of the other matches is above or below it. *)
Theorem C84_auto_partial : forall matches d d' i b0, NoDup (map (@bID R) (mdBones d)) -> (forall k p, child_of (mdBones d) k p -> (p < k)%nat) -> auto_tpose matches d = Some d' ->
  nth_error (mdBones d) i = Some b0 -> (0 < bID b0)%Z -> matches (bName b0) = true ->
  (forall k bk, k <> i -> nth_error (mdBones d) k = Some bk -> matches (bName bk) = true -> ~ descends (mdBones d) k i /\ ~ descends (mdBones d) i k) ->
  (exists x, In x (mdBones d) /\ bParent x = bID b0 /\ bPos x <> bPos b0) ->
  nth_error (mdBones d') i = Some b0 /\
  exists k c c', farthest_child (mdBones d) b0 k c /\ nth_error (mdBones d') k = Some c' /\ bPos c' = v3add (bPos b0) (levelled (v3sub (bPos c) (bPos b0))).
Proof. exact auto_level. Qed.
Print Assumptions C84_auto_partial.
(** Bones that are not below a match stay as they are. *)
Theorem C84_others : forall matches d d' j b, auto_tpose matches d = Some d' -> nth_error (mdBones d) j = Some b ->
  (forall i bi, descends (mdBones d) i j -> nth_error (mdBones d) i = Some bi -> matches (bName bi) = false) -> nth_error (mdBones d') j = Some b.
Proof. exact auto_others. Qed.
Print Assumptions C84_others.
(** Without matches nothing changes. *)
Theorem C84_idle : forall matches d, (forall b, In b (mdBones d) -> matches (bName b) = false) -> auto_tpose matches d = Some d.
Proof. exact auto_idle. Qed.
Print Assumptions C84_idle.

(** Two arms that hang, and a head above them. *)
Definition arms : mdoc :=
  mkMDoc [] [mkBone 1 "chest" 0 (mkV3 0 5 0) []; mkBone 2 "arm.L" 1 (mkV3 1 5 0) []; mkBone 3 "hand" 2 (mkV3 2 4 0) []; mkBone 4 "arm.R" 1 (mkV3 (-1) 5 0) []; mkBone 5 "hand" 4 (mkV3 (-2) 4 0) []; mkBone 6 "head" 1 (mkV3 0 7 0) []] [] None.
Definition is_arm (n : string) : bool := String.eqb n "arm.L" || String.eqb n "arm.R".
Lemma arms_order k p : child_of (mdBones arms) k p -> (p < k)%nat.
Proof.
  intros (b & pb & Ek & Ep & L & E). do 6 (destruct k as [|k]; [injection Ek as <-; cbn in L, E; try lia; do 6 (destruct p as [|p]; [injection Ep as <-; cbn in E; first [discriminate E|lia]|]); destruct p; discriminate|]). destruct k; discriminate.
Qed.
Lemma arms_above k i : descends (mdBones arms) k i -> k = i \/ (k < i)%nat.
Proof. intros H. induction H as [|i p C _ IH]; [left; reflexivity|]. apply arms_order in C. lia. Qed.
Lemma arms_apart : ~ descends (mdBones arms) 1 3.
Proof.
  intros H. inversion H as [|i p (b & pb & Ei & Ep & L & E) H' Q]; subst. injection Ei as <-. cbn in E. do 6 (destruct p as [|p]; [injection Ep as <-; cbn in E; try discriminate E; apply arms_above in H'; lia|]). destruct p; discriminate.
Qed.
Definition only_bones (d : mdoc) : Prop := mdObjects d = [] /\ mdMorphs d = [] /\ Forall (fun b => bWeights b = []) (mdBones d).
Lemma only_bones_turn base rot d : only_bones d -> (base < length (mdBones d))%nat -> exists d', bone_transform base rot d = Some d' /\ only_bones d' /\ length (mdBones d') = length (mdBones d).
Proof.
  intros (O & M & W) L. assert (WN : well_named (mdObjects d) (mdMorphs d)) by (rewrite O, M; exact (conj (NoDup_nil _) (conj (NoDup_nil _) (conj (NoDup_nil _) (fun m t (H : In m []) _ => match H with end))))).
  destruct (proj2 (turn_total base rot d WN)) as [d' E].
  { split; [exact L|]. intros j b bw o vw _ _ _ _ Ho. rewrite O in Ho. destruct Ho. }
  exists d'. split; [exact E|]. destruct (turn_counts _ _ _ _ E) as (C1 & C2 & C3). rewrite O in C1. split; [|exact C2]. split; [destruct (mdObjects d'); [reflexivity|discriminate]|]. split; [congruence|].
  destruct (nth_error (mdBones d) base) as [b0|] eqn:Eb; [|apply nth_error_None in Eb; lia].
  apply Forall_forall. intros x Hx. destruct (In_nth_error _ _ Hx) as (j & Ej). assert (Lj : (j < length (mdBones d))%nat) by (rewrite <- C2; apply nth_error_Some; rewrite Ej; discriminate).
  destruct (nth_error (mdBones d) j) as [b|] eqn:Eb'; [|apply nth_error_None in Eb'; lia]. rewrite (turn_bones base rot d d' b0 E Eb j b Eb') in Ej. injection Ej as <-. rewrite Forall_forall in W. exact (W b (nth_error_In _ _ Eb')).
Qed.
Lemma only_bones_run matches l : forall d, only_bones d -> (forall i, In i l -> (i < length (mdBones d))%nat) -> exists d', fold_left (tpose_step matches) l (Some d) = Some d'.
Proof.
  induction l as [|i l IH]; intros d H L; [exists d; reflexivity|]. cbn [fold_left]. unfold tpose_step at 2. pose proof (L i (or_introl eq_refl)) as Li. destruct (nth_error (mdBones d) i) as [b|] eqn:E; [|apply nth_error_None in E; lia].
  destruct (matches (bName b)); [|apply IH; [exact H|intros k Hk; apply L; right; exact Hk]]. unfold bone_adjust_x. rewrite E. destruct (longest_child b (mdBones d)); [|apply IH; [exact H|intros k Hk; apply L; right; exact Hk]].
  destruct (only_bones_turn i (euler_to_quat (mkE (mkV3 0 0 (level_angle v)) XYZ)) d H Li) as (d1 & -> & H1 & L1). apply IH; [exact H1|]. intros k Hk. rewrite L1. apply L. right. exact Hk.
Qed.
Example C84_arms_example : NoDup (map (@bID R) (mdBones arms)) /\ (forall k p, child_of (mdBones arms) k p -> (p < k)%nat) /\ (exists d', auto_tpose is_arm arms = Some d') /\
  (forall k bk, k <> 1%nat -> nth_error (mdBones arms) k = Some bk -> is_arm (bName bk) = true -> ~ descends (mdBones arms) k 1 /\ ~ descends (mdBones arms) 1 k) /\
  (exists x, In x (mdBones arms) /\ bParent x = 2%Z /\ bPos x <> mkV3 1 5 0) /\
  (forall i bi, descends (mdBones arms) i 0 -> nth_error (mdBones arms) i = Some bi -> is_arm (bName bi) = false).
Proof.
  split; [repeat constructor; cbn; lia|]. split; [exact arms_order|]. split.
  { rewrite auto_run. apply only_bones_run; [repeat constructor|]. intros i Hi. apply in_seq in Hi. lia. }
  split.
  { intros k bk Nk Ek M. destruct k as [|[|[|[|[|[|k]]]]]]; try (injection Ek as <-; try discriminate M; try contradiction); [split; [intros H; apply arms_above in H; lia|exact arms_apart]|destruct k; discriminate]. }
  split; [exists (mkBone 3 "hand" 2 (mkV3 2 4 0) []); split; [right; right; left; reflexivity|]; split; [reflexivity|]; cbn; intros Q; injection Q; lra|].
  intros i bi H Ei. apply arms_above in H. assert (i = 0)%nat as -> by lia. injection Ei as <-. reflexivity.
Qed.
