(** Bones from PMX over MQO to PMX. *)
From Coq Require Import String List ZArith Bool Lia.
From Verif.Model Require Import Num Vec Matrix Mqo MqoDoc Mmd2Mqo Mqo2Mmd.
From Verif Require Import Spec.MmdConvSpec Spec.Mqo2MmdSpec Spec.PmxBonesSpec Proofs.MqoDocProofs Proofs.Mmd2MqoProofs Proofs.Mmd2MqoFaces Proofs.Mqo2MmdProofs Proofs.Mqo2MmdBones.
Import ListNotations.
Local Open Scope Z_scope.
Local Open Scope list_scope.

Section Bones.
Context {T : Type} {N : Num T}.

Lemma f2_len {A B} (R : A -> B -> Prop) l m : Forall2 R l m -> length l = length m.
Proof. induction 1; cbn [length]; congruence. Qed.
Lemma existsb_name n known : existsb (String.eqb n) known = true <-> In n known.
Proof.
  rewrite existsb_exists. split; [intros (x & I & E); apply String.eqb_eq in E; now subst x|]. intros I. exists n. split; [exact I|apply String.eqb_refl].
Qed.
Lemma parent_hangs known thr (bs : list (pbone T)) b p : from_mmd_parent known thr bs b = Some p -> hangs_on known thr bs b (p - 1).
Proof.
  unfold from_mmd_parent, hangs_on. destruct (pbInherit b) as [[ip w]|] eqn:Ei.
  2:{ intros [= <-]. right. split; [intros ip (w & q & E & _); congruence|lia]. }
  destruct (nltb thr w && (ip <? Z.of_nat (length bs))) eqn:Ec.
  2:{ intros [= <-]. right. split; [|lia]. intros ip' (w' & q & E & L & Zq & _). rewrite Ei in E. injection E as -> ->. apply zidx_bound in Zq. apply andb_false_iff in Ec as [Ec|Ec]; [congruence|]. apply Z.ltb_ge in Ec. lia. }
  apply andb_true_iff in Ec as (Ew & _). destruct known as [|n0 known].
  { intros [= <-]. right. split; [|lia]. intros ip' (w' & q & _ & _ & _ & []). }
  destruct (zidx bs ip) as [q|] eqn:Eq; [|discriminate]. intros E0. apply (f_equal (fun o => match o with Some z => z | None => 0 end)) in E0. change ((if existsb (String.eqb (pbName q)) (n0 :: known) then ip + 1 else pbParent b + 1) = p) in E0. subst p. destruct (existsb (String.eqb (pbName q)) (n0 :: known)) eqn:Ek.
  - left. exists w, q. replace (ip + 1 - 1) with ip by lia. repeat (split; [assumption|]). apply existsb_name. exact Ek.
  - right. split; [|lia]. intros ip' (w' & q' & E & _ & Zq & I). rewrite Ei in E. injection E as -> ->. assert (q' = q) by congruence. subst q'. apply existsb_name in I. congruence.
Qed.
Lemma from_loop known thr (all : list (pbone T)) bs : forall i out, from_mmd_loop known thr all i bs = Some out ->
  length out = length bs /\ forall j b, nth_error bs j = Some b -> exists o p, nth_error out j = Some o /\ from_mmd_parent known thr all b = Some p /\ bID o = i + Z.of_nat j + 1 /\ bName o = pbName b /\ bParent o = p /\ bPos o = flip_z (pbPos b).
Proof.
  induction bs as [|b bs IH]; intros i out E; cbn [from_mmd_loop] in E; [injection E as <-; split; [reflexivity|intros [|]; discriminate]|].
  destruct (from_mmd_parent known thr all b) as [p|] eqn:Ep; [|discriminate]. destruct (from_mmd_loop known thr all (i + 1) bs) as [r|] eqn:Er; [|discriminate]. injection E as <-.
  destruct (IH _ _ Er) as (L & H). split; [cbn [length]; lia|]. intros [|j] x X.
  - injection X as <-. eexists _, p. split; [reflexivity|]. split; [exact Ep|]. cbn [bID bName bParent bPos]. repeat split. lia.
  - destruct (H j x X) as (o & p' & A & B & C & D). exists o, p'. split; [exact A|]. split; [exact B|]. split; [lia|exact D].
Qed.

(** *** Tails *)
Lemma set_tail_tail (bs : list (pbone T)) i t k a : zidx bs k = Some a -> exists b, zidx (set_tail bs i t) k = Some b /\ pbTail b = if k =? i then t else pbTail a.
Proof.
  intros H. unfold set_tail. destruct (zidx bs i) as [x|] eqn:E.
  - pose proof (zidx_bound _ _ _ E) as B. rewrite list_set_zidx by exact B. destruct (Z.eqb_spec k i) as [->|]; [eexists; split; reflexivity|exists a; auto].
  - exists a. split; [exact H|]. destruct (Z.eqb_spec k i) as [->|]; [congruence|reflexivity].
Qed.
Lemma set_parent_tail (bs : list (pbone T)) i p k a : zidx bs k = Some a -> exists b, zidx (set_parent bs i p) k = Some b /\ pbTail b = pbTail a.
Proof.
  intros H. unfold set_parent. destruct (zidx bs i) as [x|] eqn:E; [|exists a; auto].
  pose proof (zidx_bound _ _ _ E) as B. rewrite list_set_zidx by exact B. destruct (Z.eqb_spec k i) as [->|]; [|exists a; auto]. rewrite E in H. injection H as ->. eexists. split; reflexivity.
Qed.
Definition child_of (bones : list (bone T)) (k : Z) (x : bone T) : bool := (0 <? bParent x) && (k =? bone_index bones (bParent x)).
Fixpoint last_child (bones : list (bone T)) (k i t : Z) (l : list (bone T)) : Z :=
  match l with [] => t | x :: r => last_child bones k (i + 1) (if child_of bones k x then i else t) r end.
Lemma link_tail bones l : forall i out k a, zidx out k = Some a -> exists b, zidx (link_bones (T := T) bones i l out) k = Some b /\ pbTail b = last_child bones k i (pbTail a) l.
Proof.
  induction l as [|x l IH]; intros i out k a H; cbn [link_bones last_child]; [exists a; auto|]. unfold child_of. destruct (0 <? bParent x); cbn [andb].
  - cbn zeta. destruct (set_parent_tail out i (bone_index bones (bParent x)) k a H) as (a1 & E1 & T1). destruct (set_tail_tail _ (bone_index bones (bParent x)) i k a1 E1) as (a2 & E2 & T2).
    destruct (IH (i + 1) _ k a2 E2) as (b & Eb & Tb). exists b. split; [exact Eb|]. rewrite Tb, T2, T1. reflexivity.
  - exact (IH (i + 1) out k a H).
Qed.
Lemma last_child_spec bones k l : forall i t, (last_child bones k i t l = t /\ Forall (fun x => child_of bones k x = false) l) \/
  exists a x b, l = a ++ x :: b /\ last_child bones k i t l = i + Z.of_nat (length a) /\ child_of bones k x = true /\ Forall (fun y => child_of bones k y = false) b.
Proof.
  induction l as [|x l IH]; intros i t; [left; split; [reflexivity|constructor]|]. cbn [last_child]. destruct (IH (i + 1) (if child_of bones k x then i else t)) as [(E & F)|(a & y & b & -> & E & C & F)].
  - destruct (child_of bones k x) eqn:Ex; [right; exists [], x, l; cbn [app length]; repeat split; try assumption; lia|left; split; [exact E|constructor; assumption]].
  - right. exists (x :: a), y, b. split; [reflexivity|]. split; [rewrite E; cbn [length]; lia|auto].
Qed.

Variables (known : list string) (thr : T) (bs : list (pbone T)) (out : list (bone T)).
Hypothesis FB : from_mmd_bones known thr bs = Some out.
Hypothesis PI : parents_in bs.
Variables (move : vec3 T -> vec3 T) (bones : list (bone T)) (scale : T).
Hypothesis MB : Forall2 (moved_bone move) out bones.

Lemma bones_at j b : nth_error bs j = Some b -> exists o p, nth_error bones j = Some o /\ from_mmd_parent known thr bs b = Some p /\ bID o = Z.of_nat j + 1 /\ bName o = pbName b /\ bParent o = p /\ bPos o = move (flip_z (pbPos b)).
Proof.
  intros H. destruct (from_loop known thr bs bs 0 out FB) as (_ & G). destruct (G j b H) as (o & p & A & B & C & D & E & F).
  apply (Mqo2MmdProofs.forall2_nth _ _ _ MB) in A as (o' & A' & (M1 & M2 & M3 & M4)). exists o', p. split; [exact A'|]. split; [exact B|]. split; [rewrite M1; lia|]. split; [congruence|]. split; [congruence|]. rewrite M4, F. reflexivity.
Qed.
Lemma bones_len : length bones = length bs.
Proof. destruct (from_loop known thr bs bs 0 out FB) as (L & _). rewrite <- L. symmetry. exact (f2_len _ _ _ MB). Qed.
Lemma index_at q : 0 <= q < Z.of_nat (length bs) -> bone_index bones (q + 1) = q.
Proof.
  intros B. destruct (nth_error bs (Z.to_nat q)) as [b|] eqn:E; [|apply nth_error_None in E; lia]. destruct (bones_at _ _ E) as (o & p & A & _ & I & _). rewrite Z2Nat.id in I by lia.
  destruct (bone_index_in bones (q + 1)) as (x & X1 & X2 & X3); [rewrite <- I; apply in_map; exact (nth_error_In _ _ A)|].
  destruct (nth_error bs (Z.to_nat (bone_index bones (q + 1)))) as [b'|] eqn:E'.
  - destruct (bones_at _ _ E') as (o' & p' & A' & _ & I' & _). assert (o' = x) by congruence. subst o'. lia.
  - apply nth_error_None in E'. assert (Z.to_nat (bone_index bones (q + 1)) < length bones)%nat by (apply nth_error_Some; congruence). rewrite bones_len in H. lia.
Qed.
Lemma hangs_range b i : In b bs -> hangs_on known thr bs b i -> -1 <= i < Z.of_nat (length bs).
Proof.
  intros I [(w & q & _ & _ & Zq & _)|(_ & ->)]; [apply zidx_bound in Zq; lia|]. unfold parents_in in PI. rewrite Forall_forall in PI. exact (PI b I).
Qed.
Lemma parent_at b p : In b bs -> from_mmd_parent known thr bs b = Some p -> (if 0 <? p then bone_index bones p else -1) = p - 1.
Proof.
  intros I E. pose proof (hangs_range b _ I (parent_hangs _ _ _ _ _ E)) as R. destruct (Z.ltb_spec 0 p); [|lia]. replace p with (p - 1 + 1) at 1 by lia. apply index_at. lia.
Qed.

Theorem pmx_pmx_bones : Forall2 (fun b b' => pbName b' = pbName b /\ pbPos b' = scaled scale (move (flip_z (pbPos b))) /\ hangs_on known thr bs b (pbParent b') /\ pbInherit b' = None) bs (to_mmd_bones scale bones).
Proof.
  destruct (to_mmd_bones_spec scale bones) as (L & S0). rewrite bones_len in L.
  assert (G : forall j b, nth_error bs j = Some b -> exists b', nth_error (to_mmd_bones scale bones) j = Some b' /\ pbName b' = pbName b /\ pbPos b' = scaled scale (move (flip_z (pbPos b))) /\ hangs_on known thr bs b (pbParent b') /\ pbInherit b' = None).
  { intros j b H. destruct (bones_at j b H) as (o & p & A & B & C & D & E & F). destruct (S0 j o A) as (b' & X1 & X2 & X3 & X4 & X5). exists b'. split; [exact X1|]. split; [congruence|]. split; [rewrite X3, F; reflexivity|]. split; [|exact X4].
    rewrite X5, E, (parent_at b p (nth_error_In _ _ H) B). exact (parent_hangs _ _ _ _ _ B). }
  clear - L G. revert L G. set (P := fun b b' : pbone T => _). change (length (to_mmd_bones scale bones) = length bs -> (forall j b, nth_error bs j = Some b -> exists b', nth_error (to_mmd_bones scale bones) j = Some b' /\ P b b') -> Forall2 P bs (to_mmd_bones scale bones)). clearbody P.
  generalize (to_mmd_bones scale bones) as l'. generalize bs as l. induction l as [|b l IH]; intros [|b' l'] L G; try discriminate L; constructor.
  - destruct (G 0%nat b eq_refl) as (x & E & H). injection E as <-. exact H.
  - apply IH; [cbn in L; lia|]. intros j x E. exact (G (S j) x E).
Qed.
Lemma child_hangs k x j : (k < length bs)%nat -> nth_error bones j = Some x -> exists b', nth_error (to_mmd_bones scale bones) j = Some b' /\ (child_of bones (Z.of_nat k) x = true <-> pbParent b' = Z.of_nat k).
Proof.
  intros Hk H. destruct (to_mmd_bones_spec scale bones) as (_ & S0). destruct (S0 j x H) as (b' & X1 & _ & _ & _ & X5). exists b'. split; [exact X1|]. unfold child_of. rewrite X5. destruct (0 <? bParent x); cbn [andb]; [rewrite Z.eqb_eq; lia|]. split; [discriminate|lia].
Qed.
Theorem pmx_pmx_tails k b' : nth_error (to_mmd_bones scale bones) k = Some b' -> tail_is_child (to_mmd_bones scale bones) k (pbTail b').
Proof.
  intros H. destruct (to_mmd_bones_spec scale bones) as (L & _). pose proof bones_len as BL. assert (Hk : (k < length bs)%nat) by (rewrite <- BL, <- L; apply nth_error_Some; congruence).
  destruct (nth_error bones k) as [o|] eqn:Eo; [|apply nth_error_None in Eo; lia].
  assert (Z0 : zidx (map (conv_bone scale) bones) (Z.of_nat k) = Some (conv_bone scale o)).
  { unfold zidx. destruct (Z.ltb_spec (Z.of_nat k) 0); [lia|]. rewrite Nat2Z.id. apply map_nth_error. exact Eo. }
  destruct (link_tail bones bones 0 _ _ _ Z0) as (x & X1 & X2). fold (to_mmd_bones scale bones) in X1. unfold zidx in X1. destruct (Z.ltb_spec (Z.of_nat k) 0); [lia|]. rewrite Nat2Z.id in X1. assert (x = b') by congruence. subst x. cbn [pbTail conv_bone] in X2.
  pose proof (fun j x => child_hangs k x j Hk) as CH. destruct (last_child_spec bones (Z.of_nat k) bones 0 (-1)) as [(E & F)|(a & x & b & Eb & E & C & F)].
  - left. split; [congruence|]. apply Forall_forall. intros c I. apply In_nth_error in I as (j & J). destruct (nth_error bones j) as [x|] eqn:Ex; [|apply nth_error_None in Ex; assert (j < length (to_mmd_bones scale bones))%nat by (apply nth_error_Some; congruence); lia].
    destruct (CH j x Ex) as (c' & J' & Q). assert (c' = c) by congruence. subst c'. intros Y. apply Q in Y. rewrite Forall_forall in F. specialize (F x (nth_error_In _ _ Ex)). congruence.
  - right. assert (Ex : nth_error bones (length a) = Some x) by (rewrite Eb, nth_error_app2, Nat.sub_diag by lia; reflexivity). destruct (CH _ _ Ex) as (c & J & Q). apply nth_error_split in J as (l & r & Els & Ll).
    exists l, c, r. split; [exact Els|]. split; [rewrite Ll; rewrite X2, E; lia|]. split; [apply Q; exact C|].
    apply Forall_forall. intros d I. apply In_nth_error in I as (j & J).
    assert (Jd : nth_error (to_mmd_bones scale bones) (length a + 1 + j) = Some d) by (rewrite Els, nth_error_app2 by lia; replace (length a + 1 + j - length l)%nat with (S j) by lia; exact J).
    destruct (nth_error bones (length a + 1 + j)) as [y|] eqn:Ey; [|apply nth_error_None in Ey; assert (length a + 1 + j < length (to_mmd_bones scale bones))%nat by (apply nth_error_Some; congruence); lia].
    destruct (CH _ _ Ey) as (d' & Jd' & Q'). assert (d' = d) by congruence. subst d'. intros Y. apply Q' in Y. rewrite Forall_forall in F.
    assert (Iy : In y b). { rewrite Eb, nth_error_app2 in Ey by lia. replace (length a + 1 + j - length a)%nat with (S j) in Ey by lia. cbn [nth_error] in Ey. exact (nth_error_In _ _ Ey). }
    specialize (F y Iy). congruence.
Qed.
End Bones.
