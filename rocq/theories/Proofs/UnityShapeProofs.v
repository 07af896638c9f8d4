From Coq Require Import List ZArith Bool Lia Reals Lra Psatz.
From Verif.Model Require Import Num NumR Vec Unity UnityShape.
From Verif.Spec Require Import UnitySpec ShapeSpec.
From Verif.Proofs Require Import MatrixLemmas UnityMesh.
Import ListNotations.
Local Open Scope list_scope.
Local Open Scope R_scope.

(** *** Surfaces of revolution *)
Definition revolve (sh : Z) (rho y : Z -> R) (i j : Z) : vec3 R := mkV3 (cos (round_angle j sh) * rho i) (y i) (sin (round_angle j sh) * rho i).
(** The vertices, ring by ring, with a single vertex at each pole. *)
Definition rings (sh sv : Z) (rho y : Z -> R) (t b : Z) : list (vec3 R) :=
  flat_map (fun i => if (i =? 0)%Z then [revolve sh rho y 0 0] else if (i =? sv)%Z then [revolve sh rho y sv 0] else map (revolve sh rho y i) (upto sh)) (range t b).

Lemma nth_app_l {A} (l l' : list A) k x : nth_error l k = Some x -> nth_error (l ++ l') k = Some x.
Proof. intros H. rewrite nth_error_app1; [exact H|]. apply nth_error_Some. congruence. Qed.
Lemma nth_app_r {A} (l l' : list A) k x : nth_error l' k = Some x -> nth_error (l ++ l') (length l + k) = Some x.
Proof. intros H. rewrite nth_error_app2 by lia. replace (length l + k - length l)%nat with k by lia. exact H. Qed.

Section Rings.
Context (sh sv : Z) (Hsh : (3 <= sh)%Z) (Hsv : (2 <= sv)%Z) (rho y : Z -> R).
Lemma rings_length t : (0 < t <= sv)%Z -> length (rings sh sv rho y 0 t) = Z.to_nat ((t - 1) * sh + 1).
Proof.
  intros Ht. assert (G : forall k, (Z.of_nat k < sv)%Z -> length (rings sh sv rho y 0 (Z.of_nat k + 1)) = Z.to_nat (Z.of_nat k * sh + 1)).
  { induction k as [|k IH]; intros Hk; [reflexivity|]. unfold rings in *. rewrite (range_snoc 0 (Z.of_nat (S k))) by lia. rewrite flat_map_app, app_length. replace (Z.of_nat (S k))%Z with (Z.of_nat k + 1)%Z by lia.
    rewrite IH by lia. cbn [flat_map]. destruct (Z.eqb_spec (Z.of_nat k + 1) 0); [lia|]. destruct (Z.eqb_spec (Z.of_nat k + 1) sv); [lia|]. rewrite app_nil_r, map_length, upto_length. nia. }
  specialize (G (Z.to_nat (t - 1)) ltac:(lia)). replace (Z.of_nat (Z.to_nat (t - 1))) with (t - 1)%Z in G by lia. replace (t - 1 + 1)%Z with t in G by lia. exact G.
Qed.
Hypothesis P0 : rho 0%Z = 0.
Hypothesis P1 : rho sv = 0.
Lemma rings_point i j : (0 <= i <= sv)%Z -> (0 <= j < sh)%Z -> point (rings sh sv rho y 0 (sv + 1)) (vert sh sv i j) = Some (revolve sh rho y i j).
Proof.
  intros Hi Hj. unfold point. assert (E : exists l', rings sh sv rho y 0 (sv + 1) = rings sh sv rho y 0 i ++ (if (i =? 0)%Z then [revolve sh rho y 0 0] else if (i =? sv)%Z then [revolve sh rho y sv 0] else map (revolve sh rho y i) (upto sh)) ++ l').
  { assert (S1 : forall a b c, (a <= b <= c)%Z -> range a c = range a b ++ range b c).
    { intros a b c H. remember (Z.to_nat (b - a)) as k eqn:Ek. revert a H Ek. induction k as [|k IH]; intros a H Ek.
      - assert (a = b) by lia. subst a. rewrite (range_nil b b) by lia. reflexivity.
      - rewrite (range_cons a c), (range_cons a b) by lia. cbn [app]. f_equal. apply IH; lia. }
    unfold rings. rewrite (S1 0 i (sv + 1))%Z by lia. rewrite (range_cons i (sv + 1)) by lia. rewrite flat_map_app. cbn [flat_map]. eexists. reflexivity. }
  destruct E as (l' & ->). destruct (Z.eq_dec i 0) as [->|N0].
  - cbn [Z.eqb]. unfold rings at 1. rewrite range_nil by lia. cbn [flat_map app]. cbn. unfold revolve. rewrite P0. do 2 f_equal; ring.
  - unfold vert. destruct (Z.eqb_spec i 0); [contradiction|]. destruct (Z.eqb_spec i sv) as [Es|Es].
    + subst i. replace (Z.to_nat ((sv - 1) * sh + 1)) with (length (rings sh sv rho y 0 sv) + 0)%nat by (rewrite rings_length by lia; lia). apply nth_app_r, nth_app_l. cbn [nth_error]. unfold revolve. rewrite P1. do 2 f_equal; ring.
    + replace (Z.to_nat ((i - 1) * sh + j + 1)) with (length (rings sh sv rho y 0 i) + Z.to_nat j)%nat by (rewrite rings_length by lia; nia). apply nth_app_r, nth_app_l. rewrite nth_error_map, upto_nth by lia. cbn [option_map]. do 2 f_equal. lia.
Qed.
Hypothesis Pos : forall i, (0 < i < sv)%Z -> 0 < rho i.
Hypothesis Out : forall i, (0 <= i < sv)%Z -> rho i * y (i + 1)%Z < rho (i + 1)%Z * y i.

Lemma step_sin j : (0 <= j < sh)%Z -> 0 < sin (round_angle (next sh j) sh) * cos (round_angle j sh) - cos (round_angle (next sh j) sh) * sin (round_angle j sh).
Proof.
  intros Hj. rewrite <- sin_minus. assert (Hs : 0 < IZR sh) by (apply IZR_lt; lia). assert (H3 : 3 <= IZR sh) by (apply IZR_le; lia). pose proof PI_RGT_0 as HP.
  assert (D : 0 < / IZR sh * 2 * PI < PI).
  { split; [apply Rmult_lt_0_compat; [apply Rmult_lt_0_compat; [apply Rinv_0_lt_compat; exact Hs|lra]|exact HP]|].
    apply (Rmult_lt_reg_r (IZR sh)); [exact Hs|]. replace (/ IZR sh * 2 * PI * IZR sh) with (2 * PI) by (field; lra). nra. }
  destruct (next_spec sh Hsh j Hj) as (_ & [(E & ->)|(E & ->)]).
  - replace (round_angle 0 sh - round_angle j sh) with (/ IZR sh * 2 * PI - 2 * PI).
    + rewrite sin_minus, cos_2PI, sin_2PI. pose proof (sin_gt_0 _ (proj1 D) (proj2 D)). lra.
    + unfold round_angle. replace (IZR j) with (IZR sh - 1) by (rewrite <- E, plus_IZR; lra). field. lra.
  - replace (round_angle (j + 1) sh - round_angle j sh) with (/ IZR sh * 2 * PI) by (unfold round_angle; rewrite plus_IZR; field; lra). apply sin_gt_0; apply D.
Qed.
Lemma revolve_out f : In f (sphere_faces sh sv 0 sv 0) -> faces_out (rings sh sv rho y 0 (sv + 1)) f.
Proof.
  rewrite (sphere_faces_eq sh sv Hsh Hsv). intros H. apply in_flat_map in H as (i & Hi & H). apply range_in in Hi. apply in_map_iff in H as (j & <- & Hj). apply upto_in in Hj.
  destruct (next_spec sh Hsh j Hj) as (Hn & _). pose proof (step_sin j Hj) as HS. pose proof (Out i Hi) as HO.
  set (cj := cos (round_angle j sh)) in *. set (sj := sin (round_angle j sh)) in *. set (cn := cos (round_angle (next sh j) sh)) in *. set (sn := sin (round_angle (next sh j) sh)) in *.
  assert (D1 : det3 (revolve sh rho y i j) (revolve sh rho y (i + 1) j) (revolve sh rho y (i + 1) (next sh j)) = rho (i + 1)%Z * (sn * cj - cn * sj) * (rho i * y (i + 1)%Z - rho (i + 1)%Z * y i)).
  { unfold det3, revolve. cbn [vx vy vz]. fold cj sj cn sn. ring. }
  assert (D2 : forall k, (k = i + 1)%Z -> det3 (revolve sh rho y i j) (revolve sh rho y k (next sh j)) (revolve sh rho y i (next sh j)) = rho i * (sn * cj - cn * sj) * (rho i * y (i + 1)%Z - rho (i + 1)%Z * y i)).
  { intros k ->. unfold det3, revolve. cbn [vx vy vz]. fold cj sj cn sn. ring. }
  assert (N : forall r d e, 0 < r -> 0 < d -> e < 0 -> r * d * e < 0) by (intros r d e Hr Hd He; assert (0 < r * d) by (apply Rmult_lt_0_compat; assumption); nra).
  intros a b c (k & Ea & Eb & Ec). unfold sface in Ea, Eb, Ec. destruct (Z.eqb_spec (i + 1) sv) as [E|E], (Z.eqb_spec i 0) as [E0|E0]; [lia|..]; cbn [app nth_error] in Ea, Eb, Ec.
  - destruct k as [|[|k]]; cbn [nth_error] in Eb, Ec; [|try discriminate; destruct k; discriminate ..]. injection Ea as <-. injection Eb as <-. injection Ec as <-. eexists _, _, _.
    rewrite (vert_pole sh sv sv 0 (next sh j)) by (right; reflexivity). rewrite !rings_point by lia. do 3 (split; [reflexivity|]). rewrite (D2 sv) by lia. apply N; [apply Pos; lia|exact HS|lra].
  - destruct k as [|[|k]]; cbn [nth_error] in Eb, Ec; [|try discriminate; destruct k; discriminate ..]. injection Ea as <-. injection Eb as <-. injection Ec as <-. eexists _, _, _. rewrite !rings_point by lia. do 3 (split; [reflexivity|]). rewrite D1. apply N; [apply Pos; lia|exact HS|lra].
  - destruct k as [|[|[|k]]]; cbn [nth_error] in Eb, Ec; [| |try discriminate; destruct k; discriminate ..]; injection Ea as <-; injection Eb as <-; injection Ec as <-; eexists _, _, _; rewrite !rings_point by lia; (do 3 (split; [reflexivity|])).
    + rewrite D1. apply N; [apply Pos; lia|exact HS|lra].
    + rewrite (D2 (i + 1)%Z eq_refl). apply N; [apply Pos; lia|exact HS|lra].
Qed.
End Rings.

(** *** The sphere *)
Lemma down_range i sv : (2 <= sv)%Z -> (0 < i < sv)%Z -> 0 < down_angle i sv < PI.
Proof.
  intros Hs Hi. assert (A : 0 < IZR sv) by (apply IZR_lt; lia). assert (B : 0 < IZR i) by (apply IZR_lt; lia). assert (C : IZR i < IZR sv) by (apply IZR_lt; lia). pose proof PI_RGT_0 as HP. unfold down_angle.
  assert (D : 0 < IZR i / IZR sv < 1).
  { split; [apply Rdiv_lt_0_compat; assumption|]. apply (Rmult_lt_reg_r (IZR sv)); [exact A|]. unfold Rdiv. rewrite Rmult_assoc, Rinv_l by lra. lra. }
  split; nra.
Qed.
Lemma down_step i sv : (2 <= sv)%Z -> down_angle (i + 1) sv = down_angle i sv + PI / IZR sv.
Proof. intros Hs. unfold down_angle. rewrite plus_IZR. field. apply not_0_IZR. lia. Qed.
Lemma step_small sv : (2 <= sv)%Z -> 0 < PI / IZR sv < PI.
Proof.
  intros Hs. pose proof PI_RGT_0 as HP. assert (A : 2 <= IZR sv) by (apply IZR_le; lia). split; [apply Rdiv_lt_0_compat; lra|]. apply (Rmult_lt_reg_r (IZR sv)); [lra|]. replace (PI / IZR sv * IZR sv) with PI by (field; lra). nra.
Qed.
Lemma down_0 sv : down_angle 0 sv = 0.
Proof. unfold down_angle. unfold Rdiv. ring. Qed.
Lemma down_sv sv : (2 <= sv)%Z -> down_angle sv sv = PI.
Proof. intros H. unfold down_angle. field. apply not_0_IZR. lia. Qed.
Definition srho (sv i : Z) : R := sin (down_angle i sv) * / 2.
Definition sy (sv i : Z) : R := cos (down_angle i sv) * / 2.
Lemma flat_map_ext_in {A B} (g h : A -> list B) l : (forall x, In x l -> g x = h x) -> flat_map g l = flat_map h l.
Proof. induction l as [|x l IH]; intros H; [reflexivity|]. cbn [flat_map]. rewrite (H x (or_introl eq_refl)), IH; [reflexivity|]. intros z Hz. apply H. right. exact Hz. Qed.
Lemma revolve_pole sh rho y i : rho i = 0 -> revolve sh rho y i 0 = mkV3 0 (y i) 0.
Proof. intros E. unfold revolve. rewrite E. f_equal; ring. Qed.
Lemma sphere_rings sh sv t b : (2 <= sv)%Z -> sphere_verts sh sv t b = rings sh sv (srho sv) (sy sv) t (b + 1).
Proof.
  intros Hs. unfold sphere_verts, rings. apply flat_map_ext_in. intros i _. rewrite !revolve_pole.
  - unfold sy. rewrite down_0, (down_sv sv Hs), cos_0, cos_PI. destruct (i =? 0)%Z; [do 2 f_equal; ring|]. destruct (i =? sv)%Z; [do 2 f_equal; ring|]. reflexivity.
  - unfold srho. rewrite (down_sv sv Hs), sin_PI. ring.
  - unfold srho. rewrite down_0, sin_0. ring.
Qed.
Theorem sphere_out sh sv : (3 <= sh)%Z -> (2 <= sv)%Z -> Forall (faces_out (sphere_verts sh sv 0 sv)) (snd (sphere sh sv)).
Proof.
  intros Hsh Hsv. apply Forall_forall. intros f Hf. cbn [sphere snd] in Hf. rewrite (sphere_rings sh sv 0 sv Hsv). apply revolve_out; try assumption.
  - unfold srho. rewrite down_0, sin_0. ring.
  - unfold srho. rewrite (down_sv sv Hsv), sin_PI. ring.
  - intros i Hi. unfold srho. destruct (down_range i sv Hsv Hi) as (A & B). pose proof (sin_gt_0 _ A B). lra.
  - intros i Hi. unfold srho, sy. rewrite (down_step i sv Hsv). destruct (step_small sv Hsv) as (A & B). pose proof (sin_gt_0 _ A B) as S.
    assert (E : sin (PI / IZR sv) = sin (down_angle i sv + PI / IZR sv) * cos (down_angle i sv) - cos (down_angle i sv + PI / IZR sv) * sin (down_angle i sv)) by (rewrite <- sin_minus; f_equal; ring).
    rewrite E in S. nra.
Qed.
Theorem sphere_round sh sv v : In v (sphere_verts sh sv 0 sv) -> norm2 v = / 4.
Proof.
  unfold sphere_verts. intros H. apply in_flat_map in H as (i & _ & H). destruct (i =? 0)%Z; [|destruct (i =? sv)%Z].
  - destruct H as [<-|[]]. unfold norm2. cbn [vx vy vz]. lra.
  - destruct H as [<-|[]]. unfold norm2. cbn [vx vy vz]. lra.
  - apply in_map_iff in H as (j & <- & _). unfold norm2, ring_point. cbn [vx vy vz]. pose proof (sin2_cos2 (down_angle i sv)) as A. pose proof (sin2_cos2 (round_angle j sh)) as B. unfold Rsqr in A, B.
    set (c := cos (down_angle i sv)) in *. set (s := sin (down_angle i sv)) in *. set (c' := cos (round_angle j sh)) in *. set (s' := sin (round_angle j sh)) in *.
    replace (c' * (s * / 2) * (c' * (s * / 2)) + c * / 2 * (c * / 2) + s' * (s * / 2) * (s' * (s * / 2))) with ((s * s * (s' * s' + c' * c') + c * c) * / 4) by field. rewrite B, Rmult_1_r, A. lra.
Qed.
Lemma verts_length sh sv : (3 <= sh)%Z -> (2 <= sv)%Z -> Z.of_nat (length (sphere_verts sh sv 0 sv)) = fst (sphere sh sv).
Proof.
  intros Hsh Hsv. rewrite (sphere_rings sh sv 0 sv Hsv). unfold rings. rewrite (range_snoc 0 sv) by lia. rewrite flat_map_app, app_length.
  fold (rings sh sv (srho sv) (sy sv) 0 sv). rewrite rings_length by lia. cbn [flat_map]. destruct (Z.eqb_spec sv 0); [lia|]. rewrite Z.eqb_refl. cbn [app length sphere fst]. rewrite (sphere_size_eq sh sv Hsv). nia.
Qed.

(** *** The capsule *)
Definition crho (i : Z) : R := if (i <=? 4)%Z then srho 8 i else srho 8 (i - 1).
Definition cy (i : Z) : R := if (i <=? 4)%Z then sy 8 i + / 2 else sy 8 (i - 1) - / 2.
Lemma map_flat_map {A B C} (g : B -> C) (h : A -> list B) l : map g (flat_map h l) = flat_map (fun x => map g (h x)) l.
Proof. induction l as [|x l IH]; [reflexivity|]. cbn [flat_map]. rewrite map_app, IH. reflexivity. Qed.
Lemma flat_map_map {A B C} (g : A -> B) (h : B -> list C) l : flat_map h (map g l) = flat_map (fun x => h (g x)) l.
Proof. induction l as [|x l IH]; [reflexivity|]. cbn [map flat_map]. rewrite IH. reflexivity. Qed.
Lemma capsule_rings s : capsule_verts s = rings s 9 crho cy 0 10.
Proof.
  unfold capsule_verts. rewrite !sphere_rings by lia. unfold rings. change (range 0 10) with (range 0 5 ++ map (Z.add 1) (range 4 9)). rewrite flat_map_app, !map_flat_map, flat_map_map. f_equal.
  - apply flat_map_ext_in. intros i Hi. apply range_in in Hi. destruct (Z.eqb_spec i 0) as [->|N]; [reflexivity|]. destruct (Z.eqb_spec i 8); [lia|]. destruct (Z.eqb_spec i 9); [lia|]. rewrite map_map. apply map_ext. intros j.
    unfold lift, revolve, crho, cy. destruct (Z.leb_spec i 4); [reflexivity|lia].
  - change (4 + 4 + 1)%Z with 9%Z. apply flat_map_ext_in. intros i Hi. apply range_in in Hi. destruct (Z.eqb_spec i 0); [lia|]. destruct (Z.eqb_spec (1 + i) 0); [lia|].
    destruct (Z.eqb_spec i 8) as [N8|N8], (Z.eqb_spec (1 + i) 9) as [E9|E9]; try lia.
    + subst i. cbn [map]. unfold lift, revolve, crho, cy. cbn [vx vy vz]. destruct (Z.leb_spec 9 4); [lia|]. replace (9 - 1)%Z with 8%Z by lia. reflexivity.
    + rewrite map_map. apply map_ext. intros j. unfold lift, revolve, crho, cy. cbn [vx vy vz]. destruct (Z.leb_spec (1 + i) 4); [lia|]. replace (1 + i - 1)%Z with i by lia. reflexivity.
Qed.
Lemma down_half i : (0 <= i <= 4)%Z -> 0 <= down_angle i 8 <= PI / 2.
Proof.
  intros H. unfold down_angle. assert (A : 0 <= IZR i) by (apply IZR_le; lia). assert (B : IZR i <= 4) by (apply IZR_le; lia). pose proof PI_RGT_0 as HP. split; [|unfold Rdiv; nra]. unfold Rdiv. apply Rmult_le_pos; [|lra]. lra.
Qed.
Lemma down_mirror i : down_angle (8 - i) 8 = PI - down_angle i 8.
Proof. unfold down_angle. rewrite minus_IZR. field. Qed.
Lemma srho_mirror i : srho 8 (8 - i) = srho 8 i.
Proof. unfold srho. rewrite down_mirror, sin_minus, sin_PI, cos_PI. ring. Qed.
Lemma srho_up i : (0 <= i < 4)%Z -> srho 8 i < srho 8 (i + 1).
Proof.
  intros H. unfold srho. destruct (down_half i ltac:(lia)) as (A & B). destruct (down_half (i + 1) ltac:(lia)) as (C & D). pose proof PI_RGT_0 as HP.
  assert (L : down_angle i 8 < down_angle (i + 1) 8) by (rewrite down_step by lia; lra).
  pose proof (sin_increasing_1 (down_angle i 8) (down_angle (i + 1) 8) ltac:(lra) B ltac:(lra) D L). lra.
Qed.
Lemma sphere_turn i : (0 <= i < 8)%Z -> srho 8 i * sy 8 (i + 1) < srho 8 (i + 1) * sy 8 i.
Proof.
  intros Hi. unfold srho, sy. rewrite down_step by lia. destruct (step_small 8 ltac:(lia)) as (A & B). pose proof (sin_gt_0 _ A B) as S.
  assert (E : sin (PI / 8) = sin (down_angle i 8 + PI / 8) * cos (down_angle i 8) - cos (down_angle i 8 + PI / 8) * sin (down_angle i 8)) by (rewrite <- sin_minus; f_equal; ring).
  rewrite E in S. nra.
Qed.
Theorem capsule_out s : (3 <= s)%Z -> Forall (faces_out (capsule_verts s)) (snd (capsule s)).
Proof.
  intros Hs. rewrite (proj1 (capsule_sphere s ltac:(lia))). rewrite capsule_rings. apply Forall_forall. intros f Hf. cbn [sphere snd] in Hf.
  assert (Pos8 : forall i, (0 < i < 8)%Z -> 0 < srho 8 i) by (intros i Hi; unfold srho; destruct (down_range i 8 ltac:(lia) Hi) as (A & B); pose proof (sin_gt_0 _ A B); lra).
  apply (revolve_out s 9 Hs ltac:(lia) crho cy); try exact Hf.
  - unfold crho. cbn [Z.leb Z.compare]. unfold srho. rewrite down_0, sin_0. ring.
  - unfold crho. change (9 <=? 4)%Z with false. cbv iota. replace (9 - 1)%Z with 8%Z by lia. unfold srho. rewrite (down_sv 8 ltac:(lia)), sin_PI. ring.
  - intros i Hi. unfold crho. destruct (Z.leb_spec i 4); apply Pos8; lia.
  - intros i Hi. unfold crho, cy. destruct (Z.leb_spec i 4) as [L|L], (Z.leb_spec (i + 1) 4) as [L'|L']; try lia.
    + pose proof (sphere_turn i ltac:(lia)). pose proof (srho_up i ltac:(lia)). nra.
    + assert (i = 4)%Z by lia. subst i. replace (4 + 1 - 1)%Z with 4%Z by lia. pose proof (Pos8 4%Z ltac:(lia)). nra.
    + pose proof (sphere_turn (i - 1) ltac:(lia)) as T. replace (i - 1 + 1)%Z with (i + 1 - 1)%Z in T by lia. pose proof (srho_up (8 - i) ltac:(lia)) as U. replace (8 - i + 1)%Z with (8 - (i - 1))%Z in U by lia. rewrite !srho_mirror in U. replace (i + 1 - 1)%Z with i in * by lia. nra.
Qed.
Lemma capsule_verts_length s : (3 <= s)%Z -> Z.of_nat (length (capsule_verts s)) = fst (capsule s).
Proof.
  intros Hs. rewrite (proj2 (capsule_sphere s ltac:(lia))), capsule_rings. change 10%Z with (9 + 1)%Z. unfold rings. rewrite (range_snoc 0 9) by lia. rewrite flat_map_app, app_length.
  fold (rings s 9 crho cy 0 9). rewrite rings_length by lia. cbn [flat_map Z.eqb Pos.eqb app length sphere fst]. rewrite (sphere_size_eq s 9 ltac:(lia)). nia.
Qed.
(** Every vertex of a capsule is at distance 1/2 from one of the centres of the two half spheres, and on its side. *)
Theorem capsule_round s v : In v (capsule_verts s) -> 0 <= vy v - / 2 /\ norm2 (lift (- / 2) v) = / 4 \/ vy v + / 2 <= 0 /\ norm2 (lift (/ 2) v) = / 4.
Proof.
  assert (R : forall t b v, In v (sphere_verts s 8 t b) -> norm2 v = / 4).
  { intros t b w H. unfold sphere_verts in H. apply in_flat_map in H as (i & _ & H). destruct (i =? 0)%Z; [|destruct (i =? 8)%Z].
    - destruct H as [<-|[]]. unfold norm2. cbn [vx vy vz]. lra.
    - destruct H as [<-|[]]. unfold norm2. cbn [vx vy vz]. lra.
    - apply in_map_iff in H as (j & <- & _). unfold norm2, ring_point. cbn [vx vy vz]. pose proof (sin2_cos2 (down_angle i 8)) as A. pose proof (sin2_cos2 (round_angle j s)) as B. unfold Rsqr in A, B.
      set (c := cos (down_angle i 8)) in *. set (d := sin (down_angle i 8)) in *. set (c' := cos (round_angle j s)) in *. set (s' := sin (round_angle j s)) in *.
      replace (c' * (d * / 2) * (c' * (d * / 2)) + c * / 2 * (c * / 2) + s' * (d * / 2) * (s' * (d * / 2))) with ((d * d * (s' * s' + c' * c') + c * c) * / 4) by field. rewrite B, Rmult_1_r, A. lra. }
  assert (L : forall h w, lift (- h) (lift h w) = w) by (intros h [a b c]; unfold lift; cbn [vx vy vz]; f_equal; ring).
  unfold capsule_verts. intros H. apply in_app_or in H as [H|H]; apply in_map_iff in H as (w & <- & H); pose proof (R _ _ _ H) as E.
  - left. rewrite L. split; [|exact E]. unfold lift. cbn [vy]. enough (0 <= vy w) by lra. unfold sphere_verts in H. apply in_flat_map in H as (i & Hi & H). apply range_in in Hi. destruct (i =? 0)%Z; [destruct H as [<-|[]]; cbn [vy]; lra|]. destruct (Z.eqb_spec i 8); [lia|].
    apply in_map_iff in H as (j & <- & _). unfold ring_point. cbn [vy]. destruct (down_half i ltac:(lia)) as (A & B). pose proof PI_RGT_0. pose proof (cos_ge_0 (down_angle i 8) ltac:(lra) B). lra.
  - right. replace (lift (/ 2)) with (lift (- - / 2)) by (f_equal; ring). rewrite L. split; [|exact E]. unfold lift. cbn [vy]. enough (vy w <= 0) by lra. unfold sphere_verts in H. apply in_flat_map in H as (i & Hi & H). apply range_in in Hi. destruct (Z.eqb_spec i 0); [lia|]. destruct (Z.eqb_spec i 8); [destruct H as [<-|[]]; cbn [vy]; lra|].
    apply in_map_iff in H as (j & <- & _). unfold ring_point. cbn [vy]. destruct (down_half (8 - i) ltac:(lia)) as (A & B). rewrite down_mirror in A, B. pose proof PI_RGT_0. pose proof (cos_le_0 (down_angle i 8) ltac:(lra) ltac:(lra)). lra.
Qed.

(** *** The cylinder *)
Lemma cyl_point s i : (0 <= i < s)%Z -> point (cylinder_verts s) (i * 2) = Some (mkV3 (cos (round_angle i s) * / 2) 1 (sin (round_angle i s) * / 2)) /\
  point (cylinder_verts s) (i * 2 + 1) = Some (mkV3 (cos (round_angle i s) * / 2) (-1) (sin (round_angle i s) * / 2)).
Proof.
  intros Hi. assert (G : forall (g h : Z -> vec3 R) l k x, nth_error l k = Some x -> nth_error (flat_map (fun z => [g z; h z]) l) (k * 2) = Some (g x) /\ nth_error (flat_map (fun z => [g z; h z]) l) (k * 2 + 1) = Some (h x)).
  { intros g h. induction l as [|z l IH]; intros [|k] x E; cbn [nth_error] in E; try discriminate; [injection E as <-; split; reflexivity|]. cbn [flat_map app Nat.mul Nat.add nth_error]. apply IH, E. }
  unfold point, cylinder_verts. destruct (G (fun z => mkV3 (cos (round_angle z s) * / 2) 1 (sin (round_angle z s) * / 2)) (fun z => mkV3 (cos (round_angle z s) * / 2) (-1) (sin (round_angle z s) * / 2)) (upto s) (Z.to_nat i) i) as (A & B).
  - rewrite upto_nth by lia. f_equal. lia.
  - replace (Z.to_nat (i * 2)) with (Z.to_nat i * 2)%nat by lia. replace (Z.to_nat (i * 2 + 1)) with (Z.to_nat i * 2 + 1)%nat by lia. split; assumption.
Qed.
(** Three points of a circle in the order of their angles. *)
Lemma circle_turn x d : sin (2 * d) + sin (2 * x) - sin (2 * x + 2 * d) = 4 * sin (x + d) * sin x * sin d.
Proof.
  rewrite sin_plus, !sin_2a, !cos_2a, sin_plus. pose proof (sin2_cos2 x) as A. pose proof (sin2_cos2 d) as B. unfold Rsqr in A, B. set (sx := sin x) in *. set (cx := cos x) in *. set (sd := sin d) in *. set (cd := cos d) in *.
  assert (EA : cx * cx = 1 - sx * sx) by lra. assert (EB : cd * cd = 1 - sd * sd) by lra.
  replace (cx * cx - sx * sx) with (1 - 2 * (sx * sx)) by lra. replace (cd * cd - sd * sd) with (1 - 2 * (sd * sd)) by lra. ring.
Qed.
Lemma cap_det s y a b c : (3 <= s)%Z -> (0 <= a < b)%Z -> (b < c)%Z -> (c < s + a)%Z ->
  let p z := mkV3 (cos (round_angle z s) * / 2) y (sin (round_angle z s) * / 2) in
  exists k, 0 < k /\ det3 (p a) (p b) (p c) = - y * k /\ det3 (p c) (p b) (p a) = y * k.
Proof.
  intros Hs Hab Hbc Hc p. set (u := PI / IZR s). set (x := IZR (b - a) * u). set (d := IZR (c - b) * u). exists (sin (x + d) * sin x * sin d).
  assert (S0 : 0 < IZR s) by (apply IZR_lt; lia). pose proof PI_RGT_0 as HP. assert (Hd : 0 < u) by (apply Rdiv_lt_0_compat; assumption). assert (Ed : IZR s * u = PI) by (unfold u; field; lra).
  assert (A1 : 1 <= IZR (b - a)) by (apply IZR_le; lia). assert (A2 : 1 <= IZR (c - b)) by (apply IZR_le; lia). assert (A3 : IZR (b - a) + IZR (c - b) < IZR s) by (rewrite <- plus_IZR; apply IZR_lt; lia).
  assert (X0 : 0 < x) by (unfold x; nra). assert (D0 : 0 < d) by (unfold d; nra). assert (X1 : x + d < PI) by (unfold x, d; nra).
  assert (K : sin (2 * d) + sin (2 * x) - sin (2 * x + 2 * d) = 4 * sin (x + d) * sin x * sin d) by apply circle_turn.
  assert (Ba : round_angle b s = round_angle a s + 2 * x) by (unfold round_angle, x, u; rewrite minus_IZR; field; lra).
  assert (Bc : round_angle c s = round_angle a s + (2 * x + 2 * d)) by (unfold round_angle, x, d, u; rewrite !minus_IZR; field; lra).
  assert (E1 : sin (2 * d) = sin (round_angle c s) * cos (round_angle b s) - cos (round_angle c s) * sin (round_angle b s)) by (rewrite <- sin_minus; f_equal; rewrite Ba, Bc; ring).
  assert (E2 : sin (2 * x) = sin (round_angle b s) * cos (round_angle a s) - cos (round_angle b s) * sin (round_angle a s)) by (rewrite <- sin_minus; f_equal; rewrite Ba; ring).
  assert (E3 : sin (2 * x + 2 * d) = sin (round_angle c s) * cos (round_angle a s) - cos (round_angle c s) * sin (round_angle a s)) by (rewrite <- sin_minus; f_equal; rewrite Bc; ring).
  split; [repeat apply Rmult_lt_0_compat; apply sin_gt_0; lra|].
  replace (sin (x + d) * sin x * sin d) with ((sin (2 * d) + sin (2 * x) - sin (2 * x + 2 * d)) * / 4) by (rewrite K; field). rewrite E1, E2, E3. unfold det3, p. cbn [vx vy vz]. split; field.
Qed.
Theorem cylinder_out s : (3 <= s)%Z -> Forall (faces_out (cylinder_verts s)) (snd (cylinder s)).
Proof.
  intros Hs. cbn [cylinder snd]. apply Forall_app. split; [|repeat constructor].
  - apply Forall_forall. intros f Hf. apply in_map_iff in Hf as (j & <- & Hj). apply upto_in in Hj. fold (cnext s j). destruct (cnext_spec s Hs j Hj) as (Hn & _).
    pose proof (step_sin s Hs j Hj) as HS. change (next s j) with (cnext s j) in HS. destruct (cyl_point s j Hj) as (P1 & P2). destruct (cyl_point s (cnext s j) Hn) as (P3 & P4).
    intros a b c (k & Ea & Eb & Ec). destruct k as [|[|[|k]]]; cbn [nth_error] in Ea, Eb, Ec; [| |try discriminate; destruct k; discriminate ..]; injection Ea as <-; injection Eb as <-; injection Ec as <-; eexists _, _, _; rewrite ?P1, ?P2, ?P3, ?P4; (do 3 (split; [reflexivity|])); unfold det3; cbn [vx vy vz]; nra.
  - intros a b c (k & Ea & Eb & Ec). rewrite nth_error_map in Ea, Eb, Ec. assert (L : (S (S k) < Z.to_nat s)%nat).
    { destruct (nth_error (upto s) (S (S k))) eqn:E; [|discriminate]. rewrite <- (upto_length s). apply nth_error_Some. congruence. }
    rewrite !upto_nth in Ea, Eb, Ec by lia. cbn [option_map] in Ea, Eb, Ec. injection Ea as <-. injection Eb as <-. injection Ec as <-. eexists _, _, _.
    split; [exact (proj1 (cyl_point s (Z.of_nat 0) ltac:(lia)))|]. split; [exact (proj1 (cyl_point s (Z.of_nat (S k)) ltac:(lia)))|]. split; [exact (proj1 (cyl_point s (Z.of_nat (S (S k))) ltac:(lia)))|].
    destruct (cap_det s 1 (Z.of_nat 0) (Z.of_nat (S k)) (Z.of_nat (S (S k))) Hs ltac:(lia) ltac:(lia) ltac:(lia)) as (q & Hq & E & _). rewrite E. lra.
  - intros a b c (k & Ea & Eb & Ec). rewrite nth_error_map in Ea, Eb, Ec. assert (L : (S (S k) < Z.to_nat s)%nat).
    { destruct (nth_error (upto s) (S (S k))) eqn:E; [|discriminate]. rewrite <- (upto_length s). apply nth_error_Some. congruence. }
    rewrite !upto_nth in Ea, Eb, Ec by lia. cbn [option_map] in Ea, Eb, Ec. injection Ea as <-. injection Eb as <-. injection Ec as <-. eexists _, _, _.
    split; [exact (proj2 (cyl_point s (s - Z.of_nat 0 - 1) ltac:(lia)))|]. split; [exact (proj2 (cyl_point s (s - Z.of_nat (S k) - 1) ltac:(lia)))|]. split; [exact (proj2 (cyl_point s (s - Z.of_nat (S (S k)) - 1) ltac:(lia)))|].
    destruct (cap_det s (-1) (s - Z.of_nat (S (S k)) - 1) (s - Z.of_nat (S k) - 1) (s - Z.of_nat 0 - 1) Hs ltac:(lia) ltac:(lia) ltac:(lia)) as (q & Hq & _ & E). rewrite E. lra.
Qed.
Lemma cylinder_verts_length s : Z.of_nat (length (cylinder_verts s)) = fst (cylinder s).
Proof.
  unfold cylinder_verts. cbn [cylinder fst]. induction (upto s) as [|x l IH]; [reflexivity|]. cbn [flat_map app length]. lia.
Qed.
Theorem cylinder_round s v : In v (cylinder_verts s) -> off_axis2 v = / 4 /\ (vy v = 1 \/ vy v = -1).
Proof.
  intros H. apply in_flat_map in H as (i & _ & H). assert (E : (cos (round_angle i s) * / 2) * (cos (round_angle i s) * / 2) + (sin (round_angle i s) * / 2) * (sin (round_angle i s) * / 2) = / 4).
  { pose proof (sin2_cos2 (round_angle i s)) as A. unfold Rsqr in A. nra. }
  destruct H as [<-|[<-|[]]]; (split; [exact E|]); [left|right]; reflexivity.
Qed.
(** *** The cube *)
Theorem cube_out : Forall (faces_out cube_verts) cube_faces.
Proof.
  repeat constructor; intros a b c (k & Ea & Eb & Ec); destruct k as [|[|[|k]]]; cbn [nth_error] in Ea, Eb, Ec; try discriminate; try (destruct k; discriminate); injection Ea as <-; injection Eb as <-; injection Ec as <-;
    eexists _, _, _; unfold point; cbn [Z.to_nat Pos.to_nat Pos.iter_op Nat.add nth_error cube_verts]; (do 3 (split; [reflexivity|])); unfold det3; cbn [vx vy vz]; lra.
Qed.

(** *** Texture coordinates of the sphere *)
Local Open Scope Z_scope.
Theorem sphere_texture {T : Type} (fr : Z -> Z -> T) sh sv : 3 <= sh -> 2 <= sv -> forall n f u, nth_error (sphere_faces sh sv 0 sv 0) n = Some f -> nth_error (sphere_uvs fr sh sv 0 sv) n = Some u ->
  forall m v w, nth_error f m = Some v -> nth_error u m = Some w ->
  exists i j, 0 <= i <= sv /\ 0 <= j <= sh /\ v = vert sh sv i (j mod sh) /\ w = mkV2 (fr j sh) (fr i sv).
Proof.
  intros Hsh Hsv. rewrite (sphere_faces_eq sh sv Hsh Hsv). unfold sphere_uvs.
  assert (C : forall (A B : Type) (P : A -> B -> Prop) (g : Z -> list A) (h : Z -> list B) l, (forall i, In i l -> Forall2 P (g i) (h i)) -> Forall2 P (flat_map g l) (flat_map h l)).
  { intros A B P g h. induction l as [|x l IH]; intros H; [constructor|]. cbn [flat_map]. apply Forall2_app; [apply H; left; reflexivity|apply IH; intros i Hi; apply H; right; exact Hi]. }
  assert (C' : forall (A B : Type) (P : A -> B -> Prop) (g : Z -> A) (h : Z -> B) l, (forall i, In i l -> P (g i) (h i)) -> Forall2 P (map g l) (map h l)).
  { intros A B P g h. induction l as [|x l IH]; intros H; [constructor|]. cbn [map]. constructor; [apply H; left; reflexivity|apply IH; intros i Hi; apply H; right; exact Hi]. }
  assert (N : forall (A B : Type) (P : A -> B -> Prop) l l', Forall2 P l l' -> forall k a b, nth_error l k = Some a -> nth_error l' k = Some b -> P a b).
  { intros A B P l l' F. induction F as [|x y r r' H F IH]; intros [|k] a b Ea Eb; cbn [nth_error] in Ea, Eb; try discriminate; [injection Ea as <-; injection Eb as <-; exact H|]. eapply IH; eassumption. }
  set (P := fun (v : Z) (w : vec2 T) => exists i j, 0 <= i <= sv /\ 0 <= j <= sh /\ v = vert sh sv i (j mod sh) /\ w = mkV2 (fr j sh) (fr i sv)).
  intros n f u Ef Eu m v w Ev Ew. refine (N _ _ P f u _ m v w Ev Ew). refine (N _ _ (Forall2 P) _ _ _ n f u Ef Eu). apply C. intros i Hi. apply range_in in Hi. apply C'. intros j Hj. apply upto_in in Hj.
  assert (Q : forall i' j' x, 0 <= i' <= sv -> 0 <= j' <= sh -> x = vert sh sv i' (j' mod sh) -> P x (mkV2 (fr j' sh) (fr i' sv))) by (intros i' j' x A B ->; exists i', j'; auto).
  assert (M : j mod sh = j) by (apply Z.mod_small; lia). unfold sface. destruct (Z.eqb_spec i 0) as [E0|E0], (Z.eqb_spec (i + 1) sv) as [E1|E1], (Z.eqb_spec i (sv - 1)) as [E2|E2]; try lia; cbn [app]; repeat constructor; apply Q; try lia; rewrite ?M; try reflexivity.
  rewrite E1. apply vert_pole. right. reflexivity.
Qed.
