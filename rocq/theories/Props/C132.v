(** C132: the IK chains of a PMX model are at the same bones of the MQO document. *)
From Coq Require Import String List ZArith Bool Lia.
From Verif.Model Require Import Num Vec Mqo MqoDoc Mmd2Mqo Mqo2Mmd MmdIk.
From Verif Require Import Spec.MmdIkSpec Proofs.MmdIk.
Import ListNotations.
Local Open Scope Z_scope.

(** If the targets exist and differ, every target has the IK with the length of its chain and its names, and no other bone has one. *)
Theorem C132_iks_partial : forall (T : Type) (bs : list (ikbone T)), targets_exist bs -> targets_differ bs ->
  exists l, mqo_iks bs = Some l /\ length l = length bs /\
  (forall b, In b bs -> has_ik b -> exists k, zidx l (ibTarget b) = Some (Some k) /\
     biChain k = Z.of_nat (length (ibLinks b)) + 1 /\ biName k = pbName (ibBone b) /\ (pbTail (ibBone b) <> 0 -> tail_is bs b (biTip k))) /\
  (forall i, (i < length bs)%nat -> (forall b, In b bs -> has_ik b -> ibTarget b <> Z.of_nat i) -> nth_error l i = Some None).
Proof. exact (fun T => @iks_ok T). Qed.
Print Assumptions C132_iks_partial.
(** The converter panics exactly if a target does not exist. *)
Theorem C132_crash : forall (T : Type) (bs : list (ikbone T)), mqo_iks bs = None <-> ~ targets_exist bs.
Proof. exact (fun T => @iks_none T). Qed.
Print Assumptions C132_crash.
(** If no bone inherits and the links are the bones above the target, the chain of that length, from the target up, is the target and the links. *)
Theorem C132_chain_partial : forall (T : Type) (N : Num T) known thr (bs : list (ikbone T)) out t links,
  Forall (fun b => pbInherit (ibBone b) = None) bs -> from_mmd_bones known thr (map (@ibBone T) bs) = Some out ->
  0 <= t < Z.of_nat (length bs) -> (forall l, In l links -> 0 <= l < Z.of_nat (length bs)) -> above bs t links ->
  chain out (S (length links)) (t + 1) = map (fun i => i + 1) (t :: links).
Proof. exact (fun T N => @chain_above T N). Qed.
Print Assumptions C132_chain_partial.

(** A leg: the IK bone moves the foot, by knee and hip. *)
Definition ib (name : string) (parent tail : Z) (inh : option (Z * Z)) (target : Z) (links : list Z) : ikbone Z :=
  mkIkB (mkPB name (mkV3 0 0 0) parent tail inh) target links.
Definition leg : list (ikbone Z) :=
  [ib "root" (-1) (-1) None (-1) []; ib "hip" 0 2 None (-1) []; ib "knee" 1 3 None (-1) []; ib "foot" 2 5 None (-1) [];
   ib "legIK" 0 5 None 3 [2; 1]; ib "toe" 3 (-1) None (-1) []].
Example C132_example : targets_exist leg /\ targets_differ leg /\ above leg 3 [2; 1] /\
  mqo_iks leg = Some [None; None; None; Some (mkBIK 3 "legIK" "toe"); None; None] /\
  exists out, from_mmd_bones [] 0 (map (@ibBone Z) leg) = Some out /\ chain out 3 4 = [4; 3; 2].
Proof.
  split; [|split; [|split; [|split]]].
  - intros b I H. cbn in I. repeat (destruct I as [<-|I]; [try (exfalso; apply H; reflexivity); cbn; lia|]). destruct I.
  - intros i j b c Ei Ej Hb Hc _.
    assert (G : forall k x, nth_error leg k = Some x -> has_ik x -> k = 4%nat).
    { intros [|[|[|[|[|[|k]]]]]] x E H; cbn in E; try reflexivity; try (injection E as <-; exfalso; apply H; reflexivity). destruct k; discriminate E. }
    rewrite (G i b Ei Hb), (G j c Ej Hc). reflexivity.
  - cbn [above leg]. split; [eexists; split; reflexivity|]. split; [eexists; split; reflexivity | exact I].
  - vm_compute. reflexivity.
  - eexists. split; [vm_compute; reflexivity | vm_compute; reflexivity].
Qed.

(** An IK without target (-1 in the file) panics. *)
Definition C132_total_full : Prop := forall bs : list (ikbone Z), mqo_iks bs <> None.
Theorem C132_target_refuted : ~ C132_total_full.
Proof. intro H. apply (H [ib "a" (-1) (-1) None (-1) [0]]). reflexivity. Qed.
Print Assumptions C132_target_refuted.
(** Of two IKs with one target the first is lost. *)
Definition C132_kept_full : Prop := forall (bs : list (ikbone Z)) l b, mqo_iks bs = Some l -> In b bs -> has_ik b ->
  exists k, In (Some k) l /\ biName k = pbName (ibBone b).
Theorem C132_same_refuted : ~ C132_kept_full.
Proof.
  intro H. pose (bs := [ib "foot" (-1) (-1) None (-1) []; ib "one" 0 (-1) None 0 [0]; ib "two" 0 (-1) None 0 [0]]).
  destruct (H bs _ (ib "one" 0 (-1) None 0 [0]) eq_refl) as [k [I Ek]]; [right; left; reflexivity | discriminate|].
  cbn in I. destruct I as [I|[I|[I|[]]]]; try discriminate I. injection I as <-. discriminate Ek.
Qed.
Print Assumptions C132_same_refuted.
(** If the tail of the IK bone is at the first bone, there is no tip. *)
Definition C132_tip_full : Prop := forall (bs : list (ikbone Z)) l b k, mqo_iks bs = Some l -> In b bs -> has_ik b ->
  zidx l (ibTarget b) = Some (Some k) -> biName k = pbName (ibBone b) -> tail_is bs b (biTip k).
Theorem C132_tip_refuted : ~ C132_tip_full.
Proof.
  intro H. pose (bs := [ib "toe" (-1) (-1) None (-1) []; ib "foot" 2 0 None (-1) []; ib "knee" (-1) 1 None (-1) []; ib "ik" (-1) 0 None 1 [2]]).
  destruct (H bs _ (ib "ik" (-1) 0 None 1 [2]) (mkBIK 2 "ik" "") eq_refl) as [[x [E Q]]|[E _]];
    [do 3 right; left; reflexivity | discriminate | reflexivity | reflexivity | |]; cbn in E; [|discriminate E].
  injection E as <-. discriminate Q.
Qed.
Print Assumptions C132_tip_refuted.
(** Links that leave out a bone give another chain, and so does a bone with inherited rotation. *)
Definition C132_chain_full : Prop := forall known (bs : list (ikbone Z)) out b, targets_exist bs -> from_mmd_bones known 0 (map (@ibBone Z) bs) = Some out ->
  In b bs -> has_ik b -> chain out (S (length (ibLinks b))) (ibTarget b + 1) = map (fun i => i + 1) (ibTarget b :: ibLinks b).
Theorem C132_gap_refuted : ~ C132_chain_full.
Proof.
  intro H. pose (bs := [ib "hip" (-1) 1 None (-1) []; ib "knee" 0 2 None (-1) []; ib "foot" 1 (-1) None (-1) []; ib "ik" (-1) (-1) None 2 [0]]).
  assert (E := H [] bs). specialize (E _ (ib "ik" (-1) (-1) None 2 [0]) ltac:(intros b I Hb; cbn in I; repeat (destruct I as [<-|I]; [try (exfalso; apply Hb; reflexivity); cbn; lia|]); destruct I) eq_refl
    ltac:(do 3 right; left; reflexivity) ltac:(discriminate)). vm_compute in E. discriminate E.
Qed.
Print Assumptions C132_gap_refuted.
Definition C132_inherit_full : Prop := forall known (bs : list (ikbone Z)) out b, targets_exist bs -> from_mmd_bones known 0 (map (@ibBone Z) bs) = Some out ->
  In b bs -> has_ik b -> above bs (ibTarget b) (ibLinks b) ->
  chain out (S (length (ibLinks b))) (ibTarget b + 1) = map (fun i => i + 1) (ibTarget b :: ibLinks b).
Theorem C132_inherit_refuted : ~ C132_inherit_full.
Proof.
  intro H. pose (bs := [ib "hip" (-1) 1 None (-1) []; ib "knee" 0 2 None (-1) []; ib "foot" 1 (-1) (Some (0, 1)) (-1) []; ib "ik" (-1) (-1) None 2 [1]]).
  assert (E := H ["hip"%string] bs). specialize (E _ (ib "ik" (-1) (-1) None 2 [1]) ltac:(intros b I Hb; cbn in I; repeat (destruct I as [<-|I]; [try (exfalso; apply Hb; reflexivity); cbn; lia|]); destruct I) eq_refl
    ltac:(do 3 right; left; reflexivity) ltac:(discriminate) ltac:(cbn [above ib ibTarget ibLinks]; split; [eexists; split; reflexivity | exact I])). vm_compute in E. discriminate E.
Qed.
Print Assumptions C132_inherit_refuted.
