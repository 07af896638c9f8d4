(** The IK of PMX models. *)
From Coq Require Import String List ZArith Bool Arith Lia.
From Verif.Model Require Import Num Vec Mqo MqoDoc Mmd2Mqo Mqo2Mmd MmdIk.
From Verif Require Import Spec.MmdIkSpec.
From Verif.Proofs Require Import GltfWeights Mmd2MqoProofs Mqo2MmdBones.
Import ListNotations.
Local Open Scope Z_scope.
Local Open Scope list_scope.

Lemma zx_some {A} (l : list A) i : 0 <= i -> zidx l i = nth_error l (Z.to_nat i).
Proof. intro H. unfold zidx. destruct (Z.ltb_spec i 0); [lia | reflexivity]. Qed.
Lemma zx_in {A} (l : list A) i x : zidx l i = Some x -> 0 <= i < Z.of_nat (length l).
Proof.
  unfold zidx. destruct (Z.ltb_spec i 0); [discriminate|]. intro E.
  assert (Z.to_nat i < length l)%nat by (apply nth_error_Some; congruence). lia.
Qed.
Lemma zx_none {A} (l : list A) i : zidx l i = None <-> ~ 0 <= i < Z.of_nat (length l).
Proof.
  unfold zidx. destruct (Z.ltb_spec i 0); [split; [lia | reflexivity]|]. rewrite nth_error_None. lia.
Qed.
Lemma set_nth {A} (l : list A) : forall i x j, (i < length l)%nat ->
  nth_error (list_set l i x) j = if Nat.eqb j i then Some x else nth_error l j.
Proof.
  induction l as [|a l IH]; intros i x j L; [cbn in L; lia|]. destruct i as [|i]; [destruct j; reflexivity|].
  destruct j as [|j]; [reflexivity|]. apply (IH i x j). cbn in L. lia.
Qed.

Section Ik.
Context {T : Type} {N : Num T}.
Implicit Types (bs all : list (ikbone T)).

Lemma step_none all bs : fold_left (ik_step all) bs None = None.
Proof. induction bs; [reflexivity | assumption]. Qed.
Lemma loop_none all bs : forall l, fold_left (ik_step all) bs (Some l) = None <->
  exists b, In b bs /\ has_ik b /\ ~ 0 <= ibTarget b < Z.of_nat (length l).
Proof.
  induction bs as [|b bs IH]; intro l; cbn [fold_left ik_step].
  - split; [discriminate | intros [b [[] _]]].
  - destruct (ibLinks b) as [|k ks] eqn:Ek.
    + rewrite IH. split; intros [c [I [H Q]]]; exists c; [auto using in_cons|].
      destruct I as [<-|I]; [exfalso; apply H; exact Ek | auto].
    + destruct (zidx l (ibTarget b)) as [x|] eqn:Ex.
      * rewrite IH, list_set_same_length. split; intros [c [I [H Q]]]; exists c; [auto using in_cons|].
        destruct I as [<-|I]; [exfalso; apply Q; exact (zx_in _ _ _ Ex) | auto].
      * split; [|intros _; apply step_none]. intros _. exists b. split; [left; reflexivity|]. split; [unfold has_ik; congruence|].
        apply zx_none. exact Ex.
Qed.
Lemma iks_none bs : mqo_iks bs = None <-> ~ targets_exist bs.
Proof.
  unfold mqo_iks. rewrite loop_none, map_length. unfold targets_exist. split.
  - intros [b [I [H Q]]] C. exact (Q (C b I H)).
  - intro C.
    assert (D : (exists b, In b bs /\ has_ik b /\ ~ 0 <= ibTarget b < Z.of_nat (length bs)) \/
                (forall b, In b bs -> has_ik b -> 0 <= ibTarget b < Z.of_nat (length bs))).
    { clear C. generalize (Z.of_nat (length bs)) as n. intro n. induction bs as [|b bs IH]; [right; intros b []|].
      destruct IH as [[c [I [H Q]]]|IH]; [left; exists c; auto using in_cons|].
      destruct (ibLinks b) as [|k ks] eqn:Ek.
      - right. intros c [<-|I] H; [contradiction|]. auto.
      - destruct (Z_le_dec 0 (ibTarget b)); [destruct (Z_lt_dec (ibTarget b) n)|].
        + right. intros c [<-|I] H; auto.
        + left. exists b. split; [left; reflexivity|]. split; [unfold has_ik; congruence | lia].
        + left. exists b. split; [left; reflexivity|]. split; [unfold has_ik; congruence | lia]. }
    destruct D as [D|D]; [exact D | contradiction].
Qed.
(** What is at place [k] in the end: the IK of the last bone that has the place as its target. *)
Lemma loop_some all bs : forall l l', fold_left (ik_step all) bs (Some l) = Some l' ->
  length l' = length l /\
  (forall k, (forall b, In b bs -> has_ik b -> ibTarget b <> Z.of_nat k) -> nth_error l' k = nth_error l k) /\
  (forall b1 b b2, bs = b1 ++ b :: b2 -> has_ik b -> (forall c, In c b2 -> has_ik c -> ibTarget c <> ibTarget b) ->
     zidx l' (ibTarget b) = Some (Some (ik_of all b))).
Proof.
  induction bs as [|b bs IH]; intros l l' E; cbn [fold_left] in E.
  - injection E as <-. split; [reflexivity|]. split; [reflexivity|]. intros b1 b b2 Q. destruct b1; discriminate.
  - cbn [ik_step] in E. destruct (ibLinks b) as [|k ks] eqn:Ek.
    + destruct (IH _ _ E) as [A [B C]]. split; [exact A|]. split.
      * intros k H. apply B. intros c I. apply H. right; exact I.
      * intros b1 c b2 Q H U. destruct b1 as [|x b1]; injection Q as <- Q; [exfalso; apply H; exact Ek | exact (C b1 c b2 Q H U)].
    + destruct (zidx l (ibTarget b)) as [x|] eqn:Ex; [|rewrite step_none in E; discriminate].
      assert (Rg := zx_in _ _ _ Ex). destruct (IH _ _ E) as [A [B C]]. rewrite list_set_same_length in A.
      split; [exact A|]. split.
      * intros j H. rewrite B by (intros c I; apply H; right; exact I). rewrite set_nth by lia.
        destruct (Nat.eqb_spec j (Z.to_nat (ibTarget b))) as [->|]; [|reflexivity].
        exfalso. apply (H b); [left; reflexivity | unfold has_ik; congruence | lia].
      * intros b1 c b2 Q H U. destruct b1 as [|y b1]; injection Q as Q1 Q2.
        -- subst b b2. rewrite zx_some by lia. rewrite B.
           ++ rewrite set_nth by lia. rewrite Nat.eqb_refl. reflexivity.
           ++ intros d I Hd. rewrite Z2Nat.id by lia. exact (U d I Hd).
        -- exact (C b1 c b2 Q2 H U).
Qed.

Lemma tip_ok bs b : pbTail (ibBone b) <> 0 -> tail_is bs b (tip_name bs b).
Proof.
  intro H. unfold tail_is, tip_name. destruct (zidx bs (pbTail (ibBone b))) as [x|] eqn:E.
  - left. exists x. split; [reflexivity|]. pose proof (zx_in _ _ _ E).
    destruct (Z.ltb_spec 0 (pbTail (ibBone b))); [|lia]. destruct (Z.ltb_spec (pbTail (ibBone b)) (Z.of_nat (length bs))); [|lia]. reflexivity.
  - right. split; [reflexivity|]. destruct (_ && _); reflexivity.
Qed.
Lemma iks_ok bs : targets_exist bs -> targets_differ bs -> exists l, mqo_iks bs = Some l /\ length l = length bs /\
  (forall b, In b bs -> has_ik b -> exists k, zidx l (ibTarget b) = Some (Some k) /\
     biChain k = Z.of_nat (length (ibLinks b)) + 1 /\ biName k = pbName (ibBone b) /\ (pbTail (ibBone b) <> 0 -> tail_is bs b (biTip k))) /\
  (forall i, (i < length bs)%nat -> (forall b, In b bs -> has_ik b -> ibTarget b <> Z.of_nat i) -> nth_error l i = Some None).
Proof.
  intros Te Td. destruct (mqo_iks bs) as [l|] eqn:E; [|apply iks_none in E; contradiction].
  exists l. split; [reflexivity|]. unfold mqo_iks in E. destruct (loop_some _ _ _ _ E) as [A [B C]]. rewrite map_length in A.
  split; [exact A|]. split.
  - intros b I H. apply in_split in I. destruct I as [b1 [b2 Q]]. exists (ik_of bs b). split.
    + apply (C b1 b b2 Q H). intros c I Hc Et. apply In_nth_error in I. destruct I as [j Ej].
      assert (length b1 = length b1 + S j)%nat; [|lia].
      apply (Td (length b1) (length b1 + S j)%nat b c); auto.
      * rewrite Q, nth_error_app2, Nat.sub_diag by lia. reflexivity.
      * rewrite Q, nth_error_app2 by lia. replace (length b1 + S j - length b1)%nat with (S j) by lia. exact Ej.
    + repeat split. cbn [ik_of biTip]. apply tip_ok.
  - intros i L H. rewrite B by exact H. rewrite nth_error_map. destruct (nth_error bs i) eqn:Ei; [reflexivity|].
    apply nth_error_None in Ei. lia.
Qed.

(** Chains *)
Lemma find_id (out : list (bone T)) : forall s i b, (forall j c, nth_error out j = Some c -> bID c = Z.of_nat (s + j) + 1) ->
  nth_error out i = Some b -> find (fun b => bID b =? Z.of_nat (s + i) + 1) out = Some b.
Proof.
  induction out as [|a out IH]; intros s i b H E; [destruct i; discriminate|]. cbn [find].
  rewrite (H 0%nat a eq_refl). destruct i as [|i].
  - rewrite Z.eqb_refl. exact E.
  - destruct (Z.eqb_spec (Z.of_nat (s + 0) + 1) (Z.of_nat (s + S i) + 1)); [lia|].
    replace (s + S i)%nat with (S s + i)%nat by lia. apply IH; [|exact E].
    intros j c Ec. rewrite (H (S j) c Ec). lia.
Qed.
Lemma chain_above known thr bs out t links :
  Forall (fun b => pbInherit (ibBone b) = None) bs -> from_mmd_bones known thr (map (@ibBone T) bs) = Some out ->
  0 <= t < Z.of_nat (length bs) -> (forall l, In l links -> 0 <= l < Z.of_nat (length bs)) -> above bs t links ->
  chain out (S (length links)) (t + 1) = map (fun i => i + 1) (t :: links).
Proof.
  intros Hi E.
  assert (Hp : Forall (fun b => pbInherit b = None) (map (@ibBone T) bs)) by (apply Forall_map; exact Hi).
  unfold from_mmd_bones in E. rewrite (from_mmd_plain known thr _ _ Hp 0), map_length in E. injection E as E.
  assert (F : forall i b, nth_error bs i = Some b -> exists c, nth_error out i = Some c /\ bID c = Z.of_nat i + 1 /\ bParent c = pbParent (ibBone b) + 1).
  { intros i b Eb. assert (Li : (i < length bs)%nat) by (apply nth_error_Some; congruence).
    assert (C : nth_error (combine (seq 0 (length bs)) (map (@ibBone T) bs)) i = Some (i, ibBone b)).
    { rewrite Mmd2MqoProofs.nth_error_combine, (map_nth_error _ _ _ Eb), (nth_error_nth' _ 0%nat) by (rewrite seq_length; lia).
      rewrite seq_nth by lia. reflexivity. }
    rewrite <- E, (map_nth_error _ _ _ C). eexists. split; [reflexivity|]. cbn [bID bParent fst snd]. split; [lia | reflexivity]. }
  assert (Lo : length out = length bs) by (rewrite <- E, map_length, combine_length, seq_length, map_length; lia).
  assert (Hid : forall j c, nth_error out j = Some c -> bID c = Z.of_nat (0 + j) + 1).
  { intros j c Ec. destruct (nth_error bs j) as [b|] eqn:Eb.
    - destruct (F j b Eb) as [c' [A [B _]]]. rewrite A in Ec. injection Ec as <-. exact B.
    - apply nth_error_None in Eb. assert (j < length out)%nat by (apply nth_error_Some; congruence). lia. }
  assert (Hf : forall t b, zidx bs t = Some b -> exists c, find (fun b => bID b =? t + 1) out = Some c /\ bParent c = pbParent (ibBone b) + 1).
  { intros u b Eu. assert (Ru := zx_in _ _ _ Eu). rewrite zx_some in Eu by lia. destruct (F _ _ Eu) as [c [A [_ B]]].
    exists c. split; [|exact B]. replace (u + 1) with (Z.of_nat (0 + Z.to_nat u) + 1) by lia. exact (find_id out 0 (Z.to_nat u) c Hid A). }
  clear E F. revert t. induction links as [|l r IH]; intros t Rt Rl Ab.
  - cbn [length chain map]. destruct (zidx bs t) as [b|] eqn:Et; [|apply zx_none in Et; lia].
    destruct (Hf t b Et) as [c [-> _]]. reflexivity.
  - destruct Ab as [[b [Eb Ep]] Ab]. change (length (l :: r)) with (S (length r)).
    destruct (Hf t b Eb) as [c [Ec Pc]].
    change (chain out (S (S (length r))) (t + 1)) with
      (match find (fun b => bID b =? t + 1) out with Some b => (t + 1) :: chain out (S (length r)) (bParent b) | None => [] end).
    rewrite Ec, Pc, Ep. rewrite IH; [reflexivity | apply Rl; left; reflexivity | intros; apply Rl; right; assumption | exact Ab].
Qed.
End Ik.
