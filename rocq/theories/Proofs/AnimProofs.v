(** Bone channels of exported animations (C85). *)
From Coq Require Import String List ZArith Reals Lra Lia Bool.
From Verif.Model Require Import Num NumR Vec MqoDoc GlbAnim.
From Verif.Spec Require Import GeomSpec AnimSpec.
From Verif.Proofs Require Import MatrixLemmas Mqo2MmdProofs.
Import ListNotations.
Local Open Scope R_scope.

(** ** The values of keys *)

Definition vpart (q : vec4 R) : vec3 R := mkV3 (qx q) (qy q) (qz q).
Definition with_vpart (u : vec3 R) (w : R) : vec4 R := mkV4 (vx u) (vy u) (vz u) w.
Lemma qapply_cross q v : let u := vpart q in let w := qw q in
  qapply q v = v3add (v3scale v (w * w - v3dot u u)) (v3add (v3scale u (2 * v3dot u v)) (v3scale (v3cross u v) (2 * w))).
Proof. destruct q, v. unfold qapply, vpart, v3add, v3scale, v3dot, v3cross; mproj; rnum; cbv zeta; mproj; comps; ring. Qed.
Lemma turn_z_dot a u v : v3dot (turn_z a u) (turn_z a v) = v3dot u v.
Proof. pose proof (sin2_cos2 a) as S. unfold Rsqr in S. destruct u as [x y z], v as [x' y' z']. unfold v3dot, turn_z; mproj; rnum. replace (x * x' + y * y') with ((sin a * sin a + cos a * cos a) * (x * x' + y * y')) by (rewrite S; ring). ring. Qed.
Lemma turn_y_dot a u v : v3dot (turn_y a u) (turn_y a v) = v3dot u v.
Proof.
  pose proof (sin2_cos2 a) as S. unfold Rsqr in S. destruct u as [x y z], v as [x' y' z']. unfold v3dot, turn_y; mproj; rnum.
  replace (x * x' + y * y' + z * z') with ((sin a * sin a + cos a * cos a) * (x * x' + z * z') + y * y') by (rewrite S; ring). ring.
Qed.
Lemma turn_z_cross a u v : v3cross (turn_z a u) (turn_z a v) = turn_z a (v3cross u v).
Proof.
  pose proof (sin2_cos2 a) as S. unfold Rsqr in S. destruct u as [x y z], v as [x' y' z']. unfold v3cross, turn_z; mproj; rnum. comps; [ring|ring|].
  transitivity ((sin a * sin a + cos a * cos a) * (x * y' - y * x')); [ring|rewrite S; ring].
Qed.
Lemma turn_y_cross a u v : v3cross (turn_y a u) (turn_y a v) = turn_y a (v3cross u v).
Proof.
  pose proof (sin2_cos2 a) as S. unfold Rsqr in S. destruct u as [x y z], v as [x' y' z']. unfold v3cross, turn_y; mproj; rnum. comps; [ring| |ring].
  transitivity ((sin a * sin a + cos a * cos a) * (z * x' - x * z')); [ring|rewrite S; ring].
Qed.
Lemma turn_z_lin a u v k : turn_z a (v3add u v) = v3add (turn_z a u) (turn_z a v) /\ turn_z a (v3scale u k) = v3scale (turn_z a u) k.
Proof. destruct u, v. unfold turn_z, v3add, v3scale; mproj; rnum. split; comps; ring. Qed.
Lemma turn_y_lin a u v k : turn_y a (v3add u v) = v3add (turn_y a u) (turn_y a v) /\ turn_y a (v3scale u k) = v3scale (turn_y a u) k.
Proof. destruct u, v. unfold turn_y, v3add, v3scale; mproj; rnum. split; comps; ring. Qed.
(** Turning the axis of a rotation turns the rotation. *)
Lemma conj_z a q v : qapply (with_vpart (turn_z a (vpart q)) (qw q)) (turn_z a v) = turn_z a (qapply q v).
Proof.
  rewrite !qapply_cross. cbv zeta. change (vpart (with_vpart (turn_z a (vpart q)) (qw q))) with (turn_z a (vpart q)). change (qw (with_vpart (turn_z a (vpart q)) (qw q))) with (qw q).
  rewrite !turn_z_dot, turn_z_cross. rewrite !(fun u v => proj1 (turn_z_lin a u v 0)), !(fun u k => proj2 (turn_z_lin a u u k)). reflexivity.
Qed.
Lemma conj_y a q v : qapply (with_vpart (turn_y a (vpart q)) (qw q)) (turn_y a v) = turn_y a (qapply q v).
Proof.
  rewrite !qapply_cross. cbv zeta. change (vpart (with_vpart (turn_y a (vpart q)) (qw q))) with (turn_y a (vpart q)). change (qw (with_vpart (turn_y a (vpart q)) (qw q))) with (qw q).
  rewrite !turn_y_dot, turn_y_cross. rewrite !(fun u v => proj1 (turn_y_lin a u v 0)), !(fun u k => proj2 (turn_y_lin a u u k)). reflexivity.
Qed.
Lemma conj_mirror q v : qapply (mkV4 (- qx q) (- qy q) (qz q) (qw q)) (mirror_z v) = mirror_z (qapply q v).
Proof. destruct q, v. unfold qapply, mirror_z; mproj; rnum; cbv zeta; comps; ring. Qed.
Lemma rot_key_motion off qo ms : same_motion off (qmul ms qo) (rot_key off qo ms).
Proof.
  intros v. unfold to_doc. rewrite <- conj_mirror. set (s := qmul ms qo). set (r := mkV4 (- qx s) (- qy s) (qz s) (qw s)). rewrite <- conj_y, <- conj_z. f_equal.
  unfold rot_key, with_vpart, vpart. fold s. fold r. unfold turn_z, turn_y; mproj. rewrite sin_neg, cos_neg. comps; ring.
Qed.
Lemma pos_key_moved off pos p : pos_key off pos p = moved_by off pos p.
Proof. destruct p, pos, off. unfold pos_key, moved_by, to_doc, mirror_z, turn_z, turn_y, anim_scale, v3add, v3scale; mproj; rnum. rewrite sin_neg, cos_neg. comps; ring. Qed.

(** ** Reading what was written *)

Definition ext (s s' : astate) : Prop := (exists x, asAccs s' = asAccs s ++ x) /\ (exists y, aaSamplers (asAnim s') = aaSamplers (asAnim s) ++ y).
Lemma nth_app_some {A} (l x : list A) i v : nth_error l i = Some v -> nth_error (l ++ x) i = Some v.
Proof. intros E. rewrite nth_error_app1; [exact E|]. apply nth_error_Some. congruence. Qed.
Lemma read_ext s s' ch e : ext s s' -> read_channel s ch = Some e -> read_channel s' ch = Some e.
Proof.
  intros [[x Hx] [y Hy]]. destruct ch as [[k n] p]. unfold read_channel. rewrite Hx, Hy. destruct (nth_error (aaSamplers (asAnim s)) k) as [[i o]|] eqn:Ek; [|discriminate]. rewrite (nth_app_some _ y k _ Ek).
  destruct (nth_error (asAccs s) i) as [a|] eqn:Ei; [|discriminate]. rewrite (nth_app_some _ x i _ Ei). destruct a; try discriminate. destruct (nth_error (asAccs s) o) as [d|] eqn:Eo; [|discriminate]. rewrite (nth_app_some _ x o _ Eo). auto.
Qed.
Lemma ext_refl s : ext s s.
Proof. split; exists []; rewrite app_nil_r; reflexivity. Qed.
Lemma plays_write s d es : plays s es -> plays (fst (write s d)) es.
Proof.
  unfold plays. cbn [write fst asAnim]. intros H. rewrite <- H. apply map_ext_in. intros ch Hc. assert (E : exists e, read_channel s ch = Some e).
  { assert (X : In (read_channel s ch) (map Some es)) by (rewrite <- H; apply in_map; exact Hc). apply in_map_iff in X as (e & <- & _). exists e. reflexivity. }
  destruct E as [e E]. rewrite E. apply (read_ext s); [|exact E]. split; cbn; [eexists; reflexivity|exists []; rewrite app_nil_r; reflexivity].
Qed.
Lemma plays_add s es k o ts d n p : plays s es -> nth_error (asAccs s) k = Some (AKeys ts) -> nth_error (asAccs s) o = Some d -> plays (add_channel s k o n p) (es ++ [(n, p, ts, d)]).
Proof.
  unfold plays. intros H Ek Eo. cbn [add_channel asAnim aaChannels]. rewrite !map_app. f_equal.
  - rewrite <- H. apply map_ext_in. intros ch Hc. assert (E : exists e, read_channel s ch = Some e).
    { assert (X : In (read_channel s ch) (map Some es)) by (rewrite <- H; apply in_map; exact Hc). apply in_map_iff in X as (e & <- & _). exists e. reflexivity. }
    destruct E as [e E]. rewrite E. apply (read_ext s); [|exact E]. split; cbn; [exists []; rewrite app_nil_r; reflexivity|eexists; reflexivity].
  - cbn [map]. unfold read_channel. cbn [add_channel asAnim aaSamplers asAccs]. rewrite nth_error_app2, Nat.sub_diag by lia. cbn [nth_error]. rewrite Ek, Eo. reflexivity.
Qed.
Lemma keys_equal_eq a : forall b, keys_equal a b = true -> a = b.
Proof. induction a as [|x a IH]; intros [|y b]; cbn; intros H; try discriminate; [reflexivity|]. apply andb_true_iff in H as [H1 H2]. apply Z.eqb_eq in H1. subst. f_equal. apply IH. exact H2. Qed.

(** ** Looking up bones *)
Lemma node_of_some bones name n : node_of bones name = Some n -> exists b, In (n, b) bones /\ abName b = name.
Proof.
  unfold node_of. destruct (last_index _ bones) as [i|] eqn:E; [|discriminate]. apply last_index_Some in E as (a & [n' b] & r & -> & <- & Q & _). rewrite nth_error_app2, Nat.sub_diag by lia. cbn. intros H. injection H as <-.
  exists b. split; [apply in_elt|apply String.eqb_eq; exact Q].
Qed.
Lemma node_of_none bones name : node_of bones name = None -> forall n b, In (n, b) bones -> abName b <> name.
Proof.
  unfold node_of. destruct (last_index _ bones) as [i|] eqn:E.
  - apply last_index_Some in E as (a & x & r & -> & <- & _ & _). rewrite nth_error_app2, Nat.sub_diag by lia. discriminate.
  - intros _ n b Hb. apply last_index_None in E. rewrite Forall_forall in E. specialize (E _ Hb). cbn in E. apply String.eqb_neq in E. exact E.
Qed.
Lemma bone_at_in bones n b : NoDup (map fst bones) -> In (n, b) bones -> bone_at bones n = Some b.
Proof.
  unfold bone_at. induction bones as [|[m c] l IH]; cbn; intros N; [intros []|]. inversion N as [|? ? N1 N2]; subst. destruct (Z.eqb_spec m n) as [->|Ne].
  - intros [H|H]; [injection H as <-; reflexivity|]. exfalso. apply N1. apply in_map_iff. exists (n, b). auto.
  - intros [H|H]; [congruence|]. apply IH; assumption.
Qed.
Lemma by_id_correct bones b : NoDup (map (fun p => abID (snd p)) bones) -> correction bones b (q_offset bones b).
Proof.
  intros N. unfold correction, q_offset, by_id. destruct (last_index _ bones) as [i|] eqn:E.
  - apply last_index_Some in E as (a & [n p] & r & -> & <- & Q & _). cbn in Q. apply Z.eqb_eq in Q. rewrite nth_error_app2, Nat.sub_diag by lia. cbn [nth_error option_map snd]. split.
    + intros n' p' Hin Ep. assert (p' = p).
      { rewrite map_app in N. cbn [map] in N. apply NoDup_remove_2 in N. apply in_app_or in Hin as [Hin|[Hin|Hin]]; [|congruence|]; exfalso; apply N; rewrite <- map_app; apply in_map_iff; exists (n', p'); (split; [cbn; congruence|apply in_or_app; auto]). }
      subst p'. destruct (Req_EM_T _ _) as [Eq|Ne].
      * rewrite (proj2 (Reqb_true _ _) Eq). reflexivity.
      * destruct (Reqb _ _) eqn:Z; [apply Reqb_true in Z; contradiction|]. reflexivity.
    + intros H. exfalso. apply (H n p (in_elt _ _ _) Q).
  - split; [|reflexivity]. intros n p Hin Ep. exfalso. apply last_index_None in E. rewrite Forall_forall in E. specialize (E _ Hin). cbn in E. rewrite Ep, Z.eqb_refl in E. discriminate.
Qed.

Lemma is_identity_eq q : is_identity q = true <-> q = mkV4 0 0 0 1.
Proof.
  unfold is_identity. rewrite !andb_true_iff, !Reqb_true. destruct q; cbn. split; [intros [[[-> ->] ->] ->]; reflexivity|intros E; injection E as -> -> -> ->; auto].
Qed.
Lemma is_zero_eq v : is_zero v = true <-> v = mkV3 0 0 0.
Proof. unfold is_zero. rewrite !andb_true_iff, !Reqb_true. destruct v; cbn. split; [intros [[-> ->] ->]; reflexivity|intros E; injection E as -> -> ->; auto]. Qed.
Definition prev_ok (s : astate) (prev : option (list Z * nat)) : Prop := forall fs k, prev = Some (fs, k) -> nth_error (asAccs s) k = Some (AKeys (seconds fs)).

Lemma bone_step_ok bones c s prev es : distinct_bones bones -> plays s es -> prev_ok s prev -> exists e,
  let r := bone_step bones (s, prev) c in
  plays (fst r) (es ++ e) /\ prev_ok (fst r) (snd r) /\ (exists x, asAccs (fst r) = asAccs s ++ x) /\ forall bb es', all_exported bones bb es' -> all_exported bones (c :: bb) (e ++ es').
Proof.
  intros (N1 & N2 & N3) P Pr. unfold bone_step. destruct (node_of bones (bcTarget c)) as [n|] eqn:En.
  2:{ exists []. cbn [fst snd]. rewrite app_nil_r. split; [exact P|]. split; [exact Pr|]. split; [exists []; rewrite app_nil_r; reflexivity|]. intros bb es' H. apply ex_none; [apply node_of_none; exact En|exact H]. }
  destruct (node_of_some bones _ n En) as (b & Hb & Eb). rewrite (bone_at_in bones n b N1 Hb).
  (* the keys *)
  assert (K : exists s1 k, (match prev with Some (fs, k) => if keys_equal (bcFrames c) fs then (s, k) else write s (AKeys (key_times (bcFrames c))) | None => write s (AKeys (key_times (bcFrames c))) end) = (s1, k) /\
    plays s1 es /\ nth_error (asAccs s1) k = Some (AKeys (seconds (bcFrames c))) /\ exists x, asAccs s1 = asAccs s ++ x).
  { assert (W : let s1 := fst (write s (AKeys (key_times (bcFrames c)))) in plays s1 es /\ nth_error (asAccs s1) (length (asAccs s)) = Some (AKeys (seconds (bcFrames c))) /\ exists x, asAccs s1 = asAccs s ++ x).
    { split; [apply plays_write; exact P|]. cbn [write fst asAccs]. split; [rewrite nth_error_app2, Nat.sub_diag by lia; reflexivity|eexists; reflexivity]. }
    destruct prev as [[fs k]|]; [destruct (keys_equal (bcFrames c) fs) eqn:Q|].
    - apply keys_equal_eq in Q. subst fs. exists s, k. split; [reflexivity|]. split; [exact P|]. split; [apply (Pr _ _ eq_refl)|exists []; rewrite app_nil_r; reflexivity].
    - eexists _, _. split; [reflexivity|exact W].
    - eexists _, _. split; [reflexivity|exact W]. }
  destruct K as (s1 & k & -> & P1 & K1 & x1 & X1). set (rots := map (rot_key (abOff b) (q_offset bones b)) (bcRots c)).
  set (er := if forallb is_identity rots then [] else [(n, PRotation, seconds (bcFrames c), ARots rots)] : list entry).
  set (s2 := if forallb is_identity rots then s1 else _).
  assert (A2 : plays s2 (es ++ er) /\ nth_error (asAccs s2) k = Some (AKeys (seconds (bcFrames c))) /\ exists x, asAccs s2 = asAccs s1 ++ x).
  { unfold s2, er. destruct (forallb is_identity rots); [rewrite app_nil_r; split; [exact P1|]; split; [exact K1|exists []; rewrite app_nil_r; reflexivity]|]. cbn [write]. split; [|split].
    - apply plays_add; [apply (plays_write s1 (ARots rots)); exact P1|apply nth_app_some; exact K1|]. cbn [asAccs]. rewrite nth_error_app2, Nat.sub_diag by lia. reflexivity.
    - cbn [add_channel asAccs]. apply nth_app_some. exact K1.
    - cbn [add_channel asAccs]. eexists. reflexivity. }
  destruct A2 as (P2 & K2 & x2 & X2). clearbody s2.
  set (et := if forallb is_zero (bcPoss c) then [] else [(n, PTranslation, seconds (bcFrames c), APoss (map (moved_by (abOff b) (abPos b)) (bcPoss c)))] : list entry).
  set (s3 := if forallb is_zero (bcPoss c) then s2 else _).
  assert (A3 : plays s3 ((es ++ er) ++ et) /\ nth_error (asAccs s3) k = Some (AKeys (seconds (bcFrames c))) /\ exists x, asAccs s3 = asAccs s2 ++ x).
  { unfold s3, et. destruct (forallb is_zero (bcPoss c)); [rewrite app_nil_r; split; [exact P2|]; split; [exact K2|exists []; rewrite app_nil_r; reflexivity]|]. cbn [write]. split; [|split].
    - apply plays_add; [apply (plays_write s2); exact P2|apply nth_app_some; exact K2|]. cbn [asAccs]. rewrite nth_error_app2, Nat.sub_diag by lia. cbn [nth_error]. do 2 f_equal. apply map_ext. intros p. apply pos_key_moved.
    - cbn [add_channel asAccs]. apply nth_app_some. exact K2.
    - cbn [add_channel asAccs]. eexists. reflexivity. }
  destruct A3 as (P3 & K3 & x3 & X3). exists (er ++ et). cbn [fst snd]. split; [rewrite app_assoc; exact P3|]. split; [intros fs k' E; injection E as <- <-; exact K3|]. split; [exists ((x1 ++ x2) ++ x3); rewrite X3, X2, X1, !app_assoc; reflexivity|].
  intros bb es' H. apply (ex_bone bones c bb es' n b (q_offset bones b)); [exact Hb|exact Eb|apply by_id_correct; exact N3| |exact H].
  exists rots, er, et. split; [reflexivity|]. split; [unfold rots; clear; induction (bcRots c); cbn; constructor; [apply rot_key_motion|assumption]|]. split.
  - unfold er. destruct (forallb is_identity rots) eqn:F; [left; split; [reflexivity|]|right; reflexivity]. apply Forall_forall. intros r Hr. rewrite forallb_forall in F. apply is_identity_eq, F, Hr.
  - unfold et. destruct (forallb is_zero (bcPoss c)) eqn:F; [left; split; [reflexivity|]|right; reflexivity]. apply Forall_forall. intros r Hr. rewrite forallb_forall in F. apply is_zero_eq, F, Hr.
Qed.
Lemma bone_channels_ok bones bb accs : distinct_bones bones -> exists es x, let s := add_bone_channels bones bb (mkAS accs (mkAA [] [])) in plays s es /\ asAccs s = accs ++ x /\ all_exported bones bb es.
Proof.
  intros D. unfold add_bone_channels. assert (G : forall bb s prev es, plays s es -> prev_ok s prev -> exists e x, plays (fst (fold_left (bone_step bones) bb (s, prev))) (es ++ e) /\ asAccs (fst (fold_left (bone_step bones) bb (s, prev))) = asAccs s ++ x /\ all_exported bones bb e).
  { clear bb. intros bb. induction bb as [|c bb IH]; intros s prev es P Pr.
    - exists [], []. rewrite !app_nil_r. split; [exact P|]. split; [reflexivity|constructor].
    - destruct (bone_step_ok bones c s prev es D P Pr) as (e & P1 & Pr1 & [x1 X1] & H). cbn [fold_left]. destruct (bone_step bones (s, prev) c) as [s1 prev1]. cbn [fst snd] in *.
      destruct (IH s1 prev1 _ P1 Pr1) as (e2 & x2 & P2 & X2 & H2). exists (e ++ e2), (x1 ++ x2). rewrite !app_assoc. split; [exact P2|]. split; [rewrite X2, X1; reflexivity|apply H; exact H2]. }
  destruct (G bb (mkAS accs (mkAA [] [])) None []) as (e & x & A & B & C); [reflexivity|discriminate|]. exists e, x. auto.
Qed.
