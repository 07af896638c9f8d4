(** Spring bones of a VRM configuration. *)
From Coq Require Import String Ascii List ZArith Bool Lia Permutation.
From Verif.Model Require Import Num Vec MqoDoc VrmConfig.
From Verif Require Import Spec.VrmSpec Proofs.Mqo2MmdProofs Proofs.VrmBones.
Import ListNotations.
Local Open Scope list_scope.

Lemma mem_in t reg : existsb (Nat.eqb t) reg = true <-> In t reg.
Proof.
  rewrite existsb_exists. split; [intros (x & Hx & E); apply Nat.eqb_eq in E as <-; exact Hx|intros H; exists t; split; [exact H|apply Nat.eqb_refl]].
Qed.
(** Children instead of ancestors. *)
Lemma below_trans nodes a b c : below nodes a b -> below nodes b c -> below nodes a c.
Proof. intros H1 H2. induction H2 as [|i n c B IH Hn Hc]; [exact H1|eapply below_child; eassumption]. Qed.
Lemma below_step nodes i n c x : nth_error nodes i = Some n -> In c (vnChildren n) -> below nodes c x -> below nodes i x.
Proof. intros Hn Hc H. eapply below_trans; [|exact H]. eapply below_child; [apply below_self|exact Hn|exact Hc]. Qed.
Lemma below_inv nodes i n x : nth_error nodes i = Some n -> below nodes i x -> x = i \/ exists c, In c (vnChildren n) /\ below nodes c x.
Proof.
  intros Hn H. induction H as [|j m c B IH Hm Hc]; [left; reflexivity|]. right. destruct IH as [->|(c' & Hc' & B')].
  - rewrite Hn in Hm. injection Hm as <-. exists c. split; [exact Hc|apply below_self].
  - exists c'. split; [exact Hc'|]. eapply below_child; eassumption.
Qed.

Lemma find_rec_spec nodes reg : forall fuel t, (find_rec fuel nodes reg t = Some true -> exists x, below nodes t x /\ In x reg) /\ (find_rec fuel nodes reg t = Some false -> forall x, below nodes t x -> ~ In x reg).
Proof.
  induction fuel as [|f IH]; intros t; cbn [find_rec]; [split; discriminate|]. destruct (existsb (Nat.eqb t) reg) eqn:Em.
  - split; [|discriminate]. intros _. exists t. split; [apply below_self|apply mem_in, Em].
  - assert (Nt : ~ In t reg) by (rewrite <- mem_in; congruence). destruct (nth_error nodes t) as [n|] eqn:En; [|split; discriminate].
    set (go := fix go (cs : list nat) : option bool := _). 
    assert (G : forall cs, (go cs = Some true -> exists c x, In c cs /\ below nodes c x /\ In x reg) /\ (go cs = Some false -> forall c x, In c cs -> below nodes c x -> ~ In x reg)).
    { induction cs as [|c r IHc]; cbn; [split; [discriminate|intros _ c x []]|]. destruct (IH c) as (A & B). destruct (find_rec f nodes reg c) as [[|]|]; [| |split; discriminate].
      - split; [|discriminate]. intros _. destruct (A eq_refl) as (x & Hx & Hr). exists c, x. auto.
      - destruct IHc as (C & D). split.
        + intros H. destruct (C H) as (c' & x & Hc & Hx). exists c', x. auto.
        + intros H c' x [<-|Hc]; [apply B; reflexivity|apply D; assumption]. }
    destruct (G (vnChildren n)) as (A & B). split.
    + intros H. destruct (A H) as (c & x & Hc & Hx & Hr). exists x. split; [eapply below_step; eassumption|exact Hr].
    + intros H x Hx. destruct (below_inv _ _ _ _ En Hx) as [->|(c & Hc & Hb)]; [exact Nt|apply (B H c x Hc Hb)].
Qed.
Lemma reg_rec_spec nodes : forall fuel t reg reg', reg_rec fuel nodes t reg = Some reg' -> forall x, In x reg' <-> In x reg \/ below nodes t x.
Proof.
  induction fuel as [|f IH]; intros t reg reg' H; cbn [reg_rec] in H; [discriminate|]. destruct (nth_error nodes t) as [n|] eqn:En; [|discriminate].
  set (go := fix go (cs : list nat) (reg : list nat) : option (list nat) := _) in H.
  assert (G : forall cs r1 r2, go cs r1 = Some r2 -> forall x, In x r2 <-> In x r1 \/ exists c, In c cs /\ below nodes c x).
  { induction cs as [|c r IHc]; intros r1 r2 Hg x; cbn in Hg.
    - injection Hg as <-. split; [auto|intros [Hx|(c & [] & _)]; exact Hx].
    - destruct (reg_rec f nodes c r1) as [r3|] eqn:E; [|discriminate]. rewrite (IHc _ _ Hg), (IH _ _ _ E). split.
      + intros [[Hx|Hx]|(c' & Hc & Hx)]; [auto|right; exists c; cbn; auto|right; exists c'; cbn; auto].
      + intros [Hx|(c' & [<-|Hc] & Hx)]; [auto|auto|right; eauto]. }
  intros x. rewrite (G _ _ _ H). cbn [In]. split.
  - intros [[<-|Hx]|(c & Hc & Hx)]; [right; apply below_self|auto|right; eapply below_step; eassumption].
  - intros [Hx|Hx]; [auto|]. destruct (below_inv _ _ _ _ En Hx) as [->|(c & Hc & Hb)]; [auto|eauto].
Qed.

(** [reg] are the nodes below [roots]. *)
Definition covers (nodes : list vnode) (roots reg : list nat) : Prop := forall x, In x reg <-> exists r, In r roots /\ below nodes r x.
Definition good (nodes : list vnode) (roots reg : list nat) : Prop := no_overlap nodes roots /\ covers nodes roots reg /\ Forall (fun r => has_mesh nodes r = false) roots.
Lemma good_snoc nodes roots reg n fuel fuel' reg' : good nodes roots reg -> has_mesh nodes n = false -> find_rec fuel nodes reg n = Some false -> reg_rec fuel' nodes n reg = Some reg' -> good nodes (roots ++ [n]) reg'.
Proof.
  intros (NO & CV & FM) Hm F R. assert (Free : forall x, below nodes n x -> ~ In x reg) by (apply (find_rec_spec nodes reg fuel n), F). split; [|split].
  - assert (Sym : forall j a x, nth_error roots j = Some a -> below nodes a x -> below nodes n x -> False).
    { intros j a x Ha Hx Hn. apply (Free x Hn). apply CV. exists a. split; [eapply nth_error_In; exact Ha|exact Hx]. }
    assert (Sn : forall j a, nth_error (roots ++ [n]) j = Some a -> nth_error roots j = Some a \/ j = length roots /\ a = n).
    { intros j a Hj. destruct (lt_dec j (length roots)) as [L|L]; [rewrite nth_error_app1 in Hj by exact L; auto|]. rewrite nth_error_app2 in Hj by lia.
      destruct (j - length roots)%nat as [|k] eqn:Ej; [|destruct k; discriminate]. cbn in Hj. right. split; [lia|congruence]. }
    intros j k a b x Ne Ha Hb Hxa Hxb. destruct (Sn _ _ Ha) as [Ha'|(Ej & ->)], (Sn _ _ Hb) as [Hb'|(Ek & ->)].
    + eapply NO; eassumption.
    + eapply Sym; eassumption.
    + eapply Sym; eassumption.
    + congruence.
  - intros x. rewrite (reg_rec_spec _ _ _ _ _ R), (CV x). split.
    + intros [(r & Hr & Hx)|Hx]; [exists r; split; [apply in_or_app; auto|exact Hx]|exists n; split; [apply in_or_app; right; left; reflexivity|exact Hx]].
    + intros (r & Hr & Hx). apply in_app_or in Hr as [Hr|[<-|[]]]; [left; eauto|right; exact Hx].
  - apply Forall_app. split; [exact FM|]. repeat constructor. exact Hm.
Qed.

Lemma touched_more nodes roots more i : touched nodes roots i -> touched nodes (roots ++ more) i.
Proof. intros (r & x & Hr & H). exists r, x. split; [apply in_or_app; auto|exact H]. Qed.

Lemma ids_good fuel nodes ids : forall pre reg bones reg' bones', good nodes (pre ++ bones) reg -> spring_ids fuel nodes ids reg bones = Some (reg', bones') ->
  exists new, bones' = bones ++ new /\ good nodes (pre ++ bones') reg' /\ incl new ids /\ forall i, In i ids -> has_mesh nodes i = false -> touched nodes (pre ++ bones') i.
Proof.
  induction ids as [|n r IH]; intros pre reg bones reg' bones' G H; cbn [spring_ids] in H.
  - injection H as <- <-. exists []. rewrite app_nil_r. split; [reflexivity|]. split; [exact G|]. split; [intros x []|intros i []].
  - destruct (has_mesh nodes n) eqn:Hm.
    + destruct (IH _ _ _ _ _ G H) as (new & E & G1 & I & A). exists new. split; [exact E|]. split; [exact G1|]. split; [intros x Hx; right; apply I, Hx|]. intros i [<-|Hi]; [congruence|apply A, Hi].
    + destruct (find_rec fuel nodes reg n) as [[|]|] eqn:F; [| |discriminate].
      * destruct (IH _ _ _ _ _ G H) as (new & E & G1 & I & A). exists new. split; [exact E|]. split; [exact G1|]. split; [intros x Hx; right; apply I, Hx|]. intros i [<-|Hi]; [|apply A, Hi].
        intros _. destruct (proj1 (find_rec_spec nodes reg fuel n) F) as (x & Hb & Hx). destruct G as (_ & CV & _). apply CV in Hx as (q & Hq & Hqx). rewrite E, app_assoc. apply touched_more. exists q, x. auto.
      * destruct (reg_rec fuel nodes n reg) as [reg1|] eqn:R; [|discriminate]. pose proof (good_snoc _ _ _ _ _ _ _ G Hm F R) as G1. rewrite <- app_assoc in G1.
        destruct (IH _ _ _ _ _ G1 H) as (new & E & G2 & I & A). exists (n :: new). rewrite E, <- app_assoc. split; [reflexivity|]. rewrite E, <- app_assoc in G2, A. cbn [app] in *. split; [exact G2|].
        split; [intros x [<-|Hx]; [left; reflexivity|right; apply I, Hx]|]. intros i [<-|Hi]; [|apply A, Hi]. intros _. exists n, n. split; [|split; apply below_self].
        apply in_or_app. right. apply in_or_app. right. left. reflexivity.
Qed.

Section Match.
Context (pmatch : string -> string -> bool) (order : list nat -> list nat).

Lemma names_good fuel nodes names : forall pre reg bones reg' bones', good nodes (pre ++ bones) reg -> spring_names pmatch order fuel nodes names reg bones = Some (reg', bones') ->
  exists new, bones' = bones ++ new /\ good nodes (pre ++ bones') reg' /\ (forall x, In x new -> exists p, In p names /\ In x (match_node_name pmatch order nodes p)) /\
  forall p i, In p names -> In i (match_node_name pmatch order nodes p) -> has_mesh nodes i = false -> touched nodes (pre ++ bones') i.
Proof.
  induction names as [|p r IH]; intros pre reg bones reg' bones' G H; cbn [spring_names] in H.
  - injection H as <- <-. exists []. rewrite app_nil_r. split; [reflexivity|]. split; [exact G|]. split; [intros x []|intros p i []].
  - destruct (spring_ids fuel nodes _ reg bones) as [[reg1 bones1]|] eqn:E1; [|discriminate]. destruct (ids_good _ _ _ _ _ _ _ _ G E1) as (n1 & -> & G1 & I1 & A1).
    destruct (IH _ _ _ _ _ G1 H) as (n2 & -> & G2 & I2 & A2). exists (n1 ++ n2). split; [rewrite app_assoc; reflexivity|]. split; [exact G2|]. split.
    + intros x Hx. apply in_app_or in Hx as [Hx|Hx]; [exists p; split; [left; reflexivity|apply I1, Hx]|]. destruct (I2 x Hx) as (q & Hq & Hm). exists q. split; [right; exact Hq|exact Hm].
    + intros q i [<-|Hq] Hi Hm; [|apply (A2 q i Hq Hi Hm)]. rewrite app_assoc. apply touched_more. apply (A1 i Hi Hm).
Qed.

Lemma groups_good fuel nodes groups : forall out reg out', Forall (fun g => fst g = []) groups -> good nodes (concat out) reg -> spring_groups pmatch order fuel nodes groups reg out = Some out' ->
  exists new, out' = out ++ new /\ no_overlap nodes (concat out') /\ Forall (fun r => has_mesh nodes r = false) (concat out') /\
  (forall g x, In g new -> In x g -> exists ps p, In ps groups /\ In p (snd ps) /\ In x (match_node_name pmatch order nodes p)) /\
  forall ps p i, In ps groups -> In p (snd ps) -> In i (match_node_name pmatch order nodes p) -> has_mesh nodes i = false -> touched nodes (concat out') i.
Proof.
  induction groups as [|[b0 names] r IH]; intros out reg out' F G H; cbn [spring_groups] in H.
  - injection H as <-. exists []. rewrite app_nil_r. destruct G as (NO & _ & FM). split; [reflexivity|]. split; [exact NO|]. split; [exact FM|]. split; [intros g x []|intros ps p i []].
  - inversion F as [|? ? F1 F2]; subst. cbn [fst] in F1. subst b0. destruct (spring_names pmatch order fuel nodes names reg []) as [[reg1 bones]|] eqn:E1; [|discriminate].
    rewrite <- (app_nil_r (concat out)) in G. destruct (names_good _ _ _ _ _ _ _ _ G E1) as (n1 & E & G1 & I1 & A1). cbn [app] in E. subst n1.
    assert (EQ : concat (match bones with [] => out | _ :: _ => out ++ [bones] end) = concat out ++ bones).
    { destruct bones; [rewrite app_nil_r; reflexivity|]. rewrite concat_app. cbn [concat]. rewrite app_nil_r. reflexivity. }
    rewrite <- EQ in G1. destruct (IH _ _ _ F2 G1 H) as (n2 & E2 & NO & FM & I2 & A2).
    assert (EX : exists n1, match bones with [] => out | _ :: _ => out ++ [bones] end = out ++ n1 /\ forall g, In g n1 -> g = bones).
    { destruct bones; [exists []; rewrite app_nil_r; split; [reflexivity|intros g []]|exists [n :: bones]; split; [reflexivity|intros g [<-|[]]; reflexivity]]. }
    destruct EX as (n1 & En1 & Hn1). exists (n1 ++ n2). rewrite E2, En1, app_assoc. split; [reflexivity|]. rewrite <- En1, <- E2. split; [exact NO|]. split; [exact FM|]. split.
    + intros g x Hg Hx. apply in_app_or in Hg as [Hg|Hg].
      * rewrite (Hn1 g Hg) in Hx. destruct (I1 x Hx) as (p & Hp & Hm). exists ([], names), p. split; [left; reflexivity|auto].
      * destruct (I2 g x Hg Hx) as (ps & p & Hps & R). exists ps, p. split; [right; exact Hps|exact R].
    + intros ps p i [<-|Hps] Hp Hi Hm; [|apply (A2 ps p i Hps Hp Hi Hm)]. cbn [snd] in Hp. rewrite E2, concat_app, EQ. apply touched_more. apply (A1 p i Hp Hi Hm).
Qed.
Theorem springs_good fuel nodes groups out : Forall (fun g => fst g = []) groups -> apply_springs pmatch order fuel nodes groups [] = Some out ->
  no_overlap nodes (concat out) /\ Forall (fun r => has_mesh nodes r = false) (concat out) /\
  (forall g x, In g out -> In x g -> exists ps p, In ps groups /\ In p (snd ps) /\ In x (match_node_name pmatch order nodes p)) /\
  forall ps p i, In ps groups -> In p (snd ps) -> In i (match_node_name pmatch order nodes p) -> has_mesh nodes i = false -> touched nodes (concat out) i.
Proof.
  intros F H. assert (G0 : good nodes (concat []) []).
  { split; [intros j k a b x _ Ha; destruct j; discriminate|]. split; [|constructor]. intros x. split; [intros []|intros (r & [] & _)]. }
  destruct (groups_good _ _ _ [] [] _ F G0 H) as (new & -> & R). cbn [app] in *. exact R.
Qed.

(** Termination. *)
Lemma find_total nodes rank reg : (forall i n c, nth_error nodes i = Some n -> In c (vnChildren n) -> (rank c < rank i)%nat /\ (c < length nodes)%nat) ->
  forall fuel t, (rank t < fuel)%nat -> (t < length nodes)%nat -> exists b, find_rec fuel nodes reg t = Some b.
Proof.
  intros HR. induction fuel as [|f IH]; intros t L Lt; [lia|]. cbn [find_rec]. destruct (existsb (Nat.eqb t) reg); [eauto|]. destruct (nth_error nodes t) as [n|] eqn:En; [|apply nth_error_None in En; lia].
  assert (FC : forall c, In c (vnChildren n) -> exists b, find_rec f nodes reg c = Some b) by (intros c Hc; destruct (HR t n c En Hc); apply IH; lia).
  clear En. induction (vnChildren n) as [|c r IHc]; [eauto|]. destruct (FC c (or_introl eq_refl)) as ([|] & ->); [eauto|]. apply IHc. intros c' Hc'. apply FC. right. exact Hc'.
Qed.
Lemma reg_total nodes rank : (forall i n c, nth_error nodes i = Some n -> In c (vnChildren n) -> (rank c < rank i)%nat /\ (c < length nodes)%nat) ->
  forall fuel t reg, (rank t < fuel)%nat -> (t < length nodes)%nat -> exists r, reg_rec fuel nodes t reg = Some r.
Proof.
  intros HR. induction fuel as [|f IH]; intros t reg L Lt; [lia|]. cbn [reg_rec]. destruct (nth_error nodes t) as [n|] eqn:En; [|apply nth_error_None in En; lia].
  assert (FC : forall c reg, In c (vnChildren n) -> exists b, reg_rec f nodes c reg = Some b) by (intros c rg Hc; destruct (HR t n c En Hc); apply IH; lia).
  clear En. generalize (t :: reg). induction (vnChildren n) as [|c r IHc]; intros rg; [eauto|]. destruct (FC c rg (or_introl eq_refl)) as (r1 & ->). apply IHc. intros c' rg' Hc'. apply FC. right. exact Hc'.
Qed.
Lemma match_bound nodes p : (forall l, incl (order l) l) -> forall i, In i (match_node_name pmatch order nodes p) -> (i < length nodes)%nat.
Proof.
  intros HO i. unfold match_node_name. destruct (_ || _).
  - intros Hi. apply HO, filter_In in Hi as (Hi & _). apply in_seq in Hi. lia.
  - destruct (node_id nodes p) as [id|] eqn:E; [|intros []]. intros [<-|[]]. apply node_id_some in E as ((n & Hn & _) & _). apply nth_error_Some. congruence.
Qed.
Lemma rank_bound (rank : nat -> nat) k : exists f, forall i, (i < k)%nat -> (rank i < f)%nat.
Proof.
  induction k as [|k (f & Hf)]; [exists 0%nat; intros i Hi; lia|]. exists (Nat.max f (S (rank k))). intros i Hi. destruct (Nat.eq_dec i k) as [->|Ne]; [lia|]. specialize (Hf i ltac:(lia)). lia.
Qed.
Theorem springs_total nodes : (forall l, incl (order l) l) -> finite_nodes nodes -> exists f, forall fuel groups old, (f <= fuel)%nat -> exists out, apply_springs pmatch order fuel nodes groups old = Some out.
Proof.
  intros HO (rank & HR). destruct (rank_bound rank (length nodes)) as (f & Hf). exists f. intros fuel groups old Lf.
  assert (A : forall ids reg bones, Forall (fun i => (i < length nodes)%nat) ids -> exists r, spring_ids fuel nodes ids reg bones = Some r).
  { induction ids as [|n r IH]; intros reg bones F; cbn [spring_ids]; [eauto|]. inversion F as [|? ? F1 F2]; subst. destruct (has_mesh nodes n); [apply IH, F2|]. specialize (Hf n F1).
    destruct (find_total nodes rank reg HR fuel n ltac:(lia) F1) as ([|] & ->); [apply IH, F2|]. destruct (reg_total nodes rank HR fuel n reg ltac:(lia) F1) as (r1 & ->). apply IH, F2. }
  assert (B : forall names reg bones, exists r, spring_names pmatch order fuel nodes names reg bones = Some r).
  { induction names as [|p r IH]; intros reg bones; cbn [spring_names]; [eauto|]. destruct (A (match_node_name pmatch order nodes p) reg bones) as ([r1 b1] & ->); [|apply IH].
    apply Forall_forall. intros i. apply match_bound, HO. }
  unfold apply_springs. generalize (@nil nat) as reg. revert old. induction groups as [|[b0 names] r IH]; intros old reg; cbn [spring_groups]; [eauto|].
  destruct (B names reg b0) as ([r1 b1] & ->). apply IH.
Qed.
End Match.

(** *** Detection *)
Local Open Scope Z_scope.
Lemma pbelow_trans nodes a b c : pbelow nodes a b -> pbelow nodes b c -> pbelow nodes a c.
Proof. intros H1 H2. induction H2 as [|i n c B IH Hn Hc]; [exact H1|eapply pbelow_child; eassumption]. Qed.
Lemma pbelow_inv nodes i n x : nth_error nodes i = Some n -> pbelow nodes i x -> x = i \/ exists c, In c (pnChildren n) /\ pbelow nodes c x.
Proof.
  intros Hn H. induction H as [|j m c B IH Hm Hc]; [left; reflexivity|]. right. destruct IH as [->|(c' & Hc' & B')].
  - rewrite Hn in Hm. injection Hm as <-. exists c. split; [exact Hc|apply pbelow_self].
  - exists c'. split; [exact Hc'|]. eapply pbelow_child; eassumption.
Qed.
Lemma spring_len_spec nodes : forall fuel i l, spring_len fuel nodes i = Some l -> (0 <= l <-> loose nodes i) /\ (0 < l <-> loose nodes i /\ dynamic nodes i).
Proof.
  induction fuel as [|f IH]; intros i l H; cbn [spring_len] in H; [discriminate|]. destruct (nth_error nodes i) as [n|] eqn:En; [|discriminate].
  assert (Dy : dynamic nodes i <-> pnBody n = Some false). { split; [intros (m & Hm & Hb); congruence|intros Hb; exists n; auto]. }
  assert (Ti : tip nodes i <-> pnBody n = None /\ pnChildren n = []). { split; [intros (m & Hm & Hb); rewrite En in Hm; injection Hm as <-; exact Hb|intros Hb; exists n; auto]. }
  assert (Lo : loose nodes i -> pnBody n = Some false \/ pnBody n = None /\ pnChildren n = []). { intros L. rewrite <- Dy, <- Ti. apply L, pbelow_self. }
  destruct (pnBody n) as [[|]|] eqn:Eb.
  - injection H as <-. assert (~ loose nodes i) by (intros L; apply Lo in L; intuition discriminate). split; split; try lia; tauto.
  - set (go := fix go (cs : list nat) (l : Z) : option Z := _) in H.
    assert (G : forall cs k l', 0 < k -> go cs k = Some l' -> (l' < 0 /\ exists c, In c cs /\ ~ loose nodes c) \/ (0 < l' /\ forall c, In c cs -> loose nodes c)).
    { induction cs as [|c r IHc]; intros k l' K Hg; cbn in Hg; [injection Hg as <-; right; split; [exact K|intros c []]|]. destruct (spring_len f nodes c) as [d|] eqn:Ed; [|discriminate].
      destruct (IH c d Ed) as (A & _). destruct (Z.ltb_spec d 0) as [L|L].
      - injection Hg as <-. left. split; [lia|]. exists c. split; [left; reflexivity|]. intros Lc. apply A in Lc. lia.
      - destruct (IHc (if k <=? d then d + 1 else k) l') as [(L1 & c' & Hc & Nc)|(L1 & F)]; [destruct (Z.leb_spec k d); lia|exact Hg|left; split; [exact L1|exists c'; split; [right; exact Hc|exact Nc]]|].
        right. split; [exact L1|]. intros c' [<-|Hc]; [apply A; exact L|apply F, Hc]. }
    assert (LL : loose nodes i <-> forall c, In c (pnChildren n) -> loose nodes c).
    { split.
      - intros L c Hc x Hx. apply L. eapply pbelow_trans; [|exact Hx]. eapply pbelow_child; [apply pbelow_self|exact En|exact Hc].
      - intros F x Hx. destruct (pbelow_inv _ _ _ _ En Hx) as [->|(c & Hc & Hb)]; [left; apply Dy; reflexivity|apply (F c Hc x Hb)]. }
    destruct (G _ 1 l ltac:(lia) H) as [(L1 & c & Hc & Nc)|(L1 & F)].
    + assert (~ loose nodes i) by (intros L; apply Nc, (proj1 LL L c Hc)). split; split; try lia; tauto.
    + apply LL in F. assert (D : dynamic nodes i) by (apply Dy; reflexivity). split; split; auto; lia.
  - assert (ND : ~ dynamic nodes i) by (intros D; apply Dy in D; discriminate). destruct (pnChildren n) as [|c r] eqn:Ec; injection H as <-.
    + assert (L : loose nodes i). { intros x Hx. destruct (pbelow_inv _ _ _ _ En Hx) as [->|(c & Hc & _)]; [right; apply Ti; auto|rewrite Ec in Hc; destruct Hc]. }
      split; split; auto; try lia; tauto.
    + assert (~ loose nodes i) by (intros L; apply Lo in L; intuition discriminate). split; split; try lia; tauto.
Qed.
Lemma parent_spec nodes i p : parent_or_0 nodes i = p -> (exists q, pparent nodes q i) -> pparent nodes p i.
Proof.
  unfold parent_or_0. intros H (q & m & Hm & Hi). destruct (last_index _ nodes) as [k|] eqn:E.
  - subst p. destruct (last_index_Some _ _ _ E) as (a & x & b & -> & <- & Hq & _). exists x. rewrite nth_error_app2, Nat.sub_diag by lia. split; [reflexivity|apply mem_in, Hq].
  - exfalso. apply last_index_None in E. rewrite Forall_forall in E. specialize (E m (nth_error_In _ _ Hm)). cbn in E. apply mem_in in Hi. congruence.
Qed.
Lemma detect_spec fuel nodes is_ : forall out, detect fuel nodes is_ = Some out -> forall i, In i out <-> In i is_ /\ loose nodes i /\ dynamic nodes i /\ ~ loose nodes (parent_or_0 nodes i).
Proof.
  induction is_ as [|k r IH]; intros out H i; cbn [detect] in H; [injection H as <-; split; [intros []|intros ([] & _)]|].
  destruct (spring_len fuel nodes k) as [l|] eqn:El; [|discriminate]. destruct (spring_len_spec _ _ _ _ El) as (A & B).
  destruct (Z.ltb_spec 0 l) as [L|L].
  - destruct (spring_len fuel nodes (parent_or_0 nodes k)) as [p|] eqn:Ep; [|discriminate]. destruct (detect fuel nodes r) as [rest|]; [|discriminate]. injection H as <-. destruct (spring_len_spec _ _ _ _ Ep) as (C & _).
    apply B in L as (L1 & L2). cbn [andb]. destruct (Z.ltb_spec p 0) as [P|P]; cbn [In]; rewrite (IH rest eq_refl i).
    + assert (~ loose nodes (parent_or_0 nodes k)) by (intros X; apply C in X; lia). split; [intros [<-|X]; [auto|tauto]|]. intros ([<-|X] & Y); [auto|tauto].
    + apply C in P. split; [tauto|]. intros ([<-|X] & Y); [tauto|tauto].
  - destruct (detect fuel nodes r) as [rest|]; [|discriminate]. injection H as <-. cbn [andb In]. rewrite (IH rest eq_refl i). split; [tauto|]. intros ([<-|X] & Y1 & Y2 & Y3); [|tauto]. assert (0 < l) by (apply B; auto). lia.
Qed.
Theorem detect_exact fuel nodes out : detect_springs fuel nodes = Some out -> (forall p q i, pparent nodes p i -> pparent nodes q i -> p = q) ->
  forall i, (exists p, pparent nodes p i) -> (In i out <-> spring_root nodes i).
Proof.
  intros H UP i HP. unfold detect_springs in H. rewrite (detect_spec _ _ _ _ H i). pose proof (parent_spec nodes i _ eq_refl HP) as P. unfold spring_root. split.
  - intros (_ & L & D & NL). split; [exact D|]. split; [exact L|]. intros q Q. rewrite (UP _ _ _ Q P). exact NL.
  - intros (D & L & F). split; [|split; [exact L|split; [exact D|apply F, P]]]. apply in_seq. destruct D as (n & Hn & _). assert (i < length nodes)%nat by (apply nth_error_Some; congruence). lia.
Qed.
Lemma detect_roots fuel nodes out : detect_springs fuel nodes = Some out -> (forall p q i, pparent nodes p i -> pparent nodes q i -> p = q) -> forall i, In i out -> spring_root nodes i.
Proof.
  intros H UP i Hi. unfold detect_springs in H. apply (detect_spec _ _ _ _ H i) in Hi as (_ & L & D & NL). split; [exact D|]. split; [exact L|]. intros q Q.
  pose proof (parent_spec nodes i _ eq_refl (ex_intro _ q Q)) as P. rewrite (UP _ _ _ Q P). exact NL.
Qed.
Lemma detect_nodup fuel nodes is_ : forall out, NoDup is_ -> detect fuel nodes is_ = Some out -> NoDup out.
Proof.
  induction is_ as [|k r IH]; intros out ND H; [cbn in H; injection H as <-; constructor|]. pose proof (detect_spec _ _ _ _ H) as S. cbn [detect] in H. inversion ND as [|? ? N1 N2]; subst.
  destruct (spring_len fuel nodes k) as [l|]; [|discriminate]. destruct (if 0 <? l then _ else _) as [p|]; [|discriminate]. destruct (detect fuel nodes r) as [rest|] eqn:E; [|discriminate].
  specialize (IH rest N2 eq_refl). destruct ((0 <? l) && (p <? 0))%bool; injection H as <-; [|exact IH]. constructor; [|exact IH]. intros X. apply N1. apply (detect_spec _ _ _ _ E k), X.
Qed.
Lemma roots_apart nodes a b x : (forall p q i, pparent nodes p i -> pparent nodes q i -> p = q) -> spring_root nodes a -> spring_root nodes b -> a <> b -> pbelow nodes a x -> pbelow nodes b x -> False.
Proof.
  intros UP. assert (C : forall a b x, pbelow nodes a x -> pbelow nodes b x -> pbelow nodes a b \/ pbelow nodes b a).
  { intros a' b' y Ha. revert b'. induction Ha as [|i n c B IH Hn Hc]; intros b' Hb; [auto|]. inversion Hb as [|i' n' c' B' Hn' Hc']; subst.
    - left. eapply pbelow_child; eassumption.
    - assert (i' = i) by (apply (UP i' i c); [exists n'|exists n]; auto). subst i'. apply IH, B'. }
  assert (D : forall a b, spring_root nodes a -> spring_root nodes b -> a <> b -> pbelow nodes a b -> False).
  { intros a' b' (_ & La & _) (_ & _ & Fb) Ne H. inversion H as [|i n c B Hn Hc]; subst; [contradiction|]. apply (Fb i); [exists n; auto|]. intros y Hy. apply La. eapply pbelow_trans; eassumption. }
  intros Ra Rb Ne Ha Hb. destruct (C a b x Ha Hb); [apply (D a b)|apply (D b a)]; auto.
Qed.
Lemma same_below ps vs : same_nodes ps vs -> forall r x, below vs r x -> pbelow ps r x.
Proof.
  intros S r x H. induction H as [|i n c B IH Hn Hc]; [apply pbelow_self|]. assert (exists p, nth_error ps i = Some p /\ pnChildren p = vnChildren n) as (p & Hp & Ec).
  { clear - S Hn. revert i Hn. induction S as [|p v ps vs (E1 & E2) S IH]; intros [|i] Hn; cbn in *; try discriminate; [injection Hn as <-; eauto|apply IH, Hn]. }
  eapply pbelow_child; [exact IH|exact Hp|rewrite Ec; exact Hc].
Qed.
(** Every detected root becomes a spring bone. *)
Theorem detect_applied pmatch order fuel fuel' ps vs roots group gs : same_nodes ps vs -> NoDup (map vnName vs) -> Forall (fun v => plain (vnName v)) vs ->
  (forall p q i, pparent ps p i -> pparent ps q i -> p = q) -> detect_springs fuel ps = Some roots -> detect_group fuel ps = Some group ->
  Forall (fun i => has_mesh vs i = false) roots -> apply_springs pmatch order fuel' vs group [] = Some gs -> concat gs = roots.
Proof.
  intros S ND PL UP D G M A. pose proof (detect_roots _ _ _ D UP) as R. pose proof (detect_nodup _ _ _ _ (seq_NoDup _ _) D) as NR.
  assert (ID : forall i p, nth_error ps i = Some p -> match_node_name pmatch order vs (pnName p) = [i]).
  { intros i p Hp. assert (exists v, nth_error vs i = Some v /\ pnName p = vnName v) as (v & Hv & En).
    { clear - S Hp. revert i Hp. induction S as [|p0 v ps vs (E1 & E2) S IH]; intros [|i] Hp; cbn in *; try discriminate; [injection Hp as <-; eauto|apply IH, Hp]. }
    rewrite Forall_forall in PL. destruct (PL v (nth_error_In _ _ Hv)) as (P1 & P2). unfold match_node_name. rewrite En, P1, P2. cbn [orb].
    assert (node_id vs (vnName v) = Some i) as ->; [|reflexivity]. apply node_id_some. split; [eauto|]. intros j m Hj Em. assert (j = i); [|lia].
    eapply NoDup_nth_error; [exact ND|rewrite map_length; apply nth_error_Some; congruence|]. rewrite !nth_error_map, Hj, Hv. cbn. congruence. }
  unfold detect_group in G. rewrite D in G. destruct roots as [|r0 rs]; [injection G as <-; cbn in A; injection A as <-; reflexivity|]. injection G as <-. unfold apply_springs in A. cbn [spring_groups] in A.
  change (match nth_error ps r0 with Some n1 => [pnName n1] | None => [] end ++ flat_map (fun i => match nth_error ps i with Some n2 => [pnName n2] | None => [] end) rs) with
    (flat_map (fun i => match nth_error ps i with Some n => [pnName n] | None => [] end) (r0 :: rs)) in A.
  set (nm := fun i => match nth_error ps i with Some n => [pnName n] | None => [] end) in A.
  assert (K : forall todo done reg reg' bones', done ++ todo = r0 :: rs -> good vs done reg -> spring_names pmatch order fuel' vs (flat_map nm todo) reg done = Some (reg', bones') -> bones' = done ++ todo).
  { induction todo as [|r todo IH]; intros done reg reg' bones' E Gd H; [cbn in H; injection H as _ <-; rewrite app_nil_r; reflexivity|].
    assert (Ir : In r (r0 :: rs)) by (rewrite <- E; apply in_or_app; right; left; reflexivity). pose proof (R r Ir) as Rr. destruct Rr as ((n & Hn & _) & _). cbn [flat_map] in H. unfold nm at 1 in H. rewrite Hn in H.
    cbn [app spring_names] in H. rewrite (ID r n Hn) in H. cbn [spring_ids] in H. rewrite Forall_forall in M. pose proof (M r Ir) as Mr. rewrite Mr in H.
    destruct (find_rec fuel' vs reg r) as [[|]|] eqn:F; [| |discriminate].
    - exfalso. destruct (proj1 (find_rec_spec vs reg fuel' r) F) as (x & Hx & Hreg). destruct Gd as (_ & CV & _). apply CV in Hreg as (q & Hq & Hqx).
      assert (q <> r). { intros ->. rewrite <- E in NR. apply NoDup_remove_2 in NR. apply NR, in_or_app. left. exact Hq. }
      apply (roots_apart ps q r x UP); [apply R; rewrite <- E; apply in_or_app; left; exact Hq|apply R, Ir|assumption|eapply same_below; eassumption|eapply same_below; eassumption].
    - destruct (reg_rec fuel' vs r reg) as [reg1|] eqn:RR; [|discriminate]. pose proof (good_snoc _ _ _ _ _ _ _ Gd Mr F RR) as G1. rewrite (IH (done ++ [r]) reg1 reg' bones'); [rewrite <- app_assoc; reflexivity|rewrite <- app_assoc; exact E|exact G1|exact H]. }
  destruct (spring_names pmatch order fuel' vs (flat_map nm (r0 :: rs)) [] []) as [[reg1 bones]|] eqn:E; [|discriminate].
  assert (Gd0 : good vs [] []). { split; [intros j k a b x _ Ha; destruct j; discriminate|]. split; [|constructor]. intros x. split; [intros []|intros (r & [] & _)]. }
  rewrite (K _ [] [] _ _ eq_refl Gd0 E) in A. cbn in A. injection A as <-. cbn. rewrite app_nil_r. reflexivity.
Qed.

(** *** Colliders *)
Section Colliders.
Context {T : Type} {N : Num T}.
Lemma shape_in (s : cshape T) r o : In (r, o) (shape_collider s) <-> round s r o.
Proof.
  unfold shape_collider, round. destruct (String.eqb_spec (csType s) "SPHERE") as [E1|E1]; cbn [orb]; [|destruct (String.eqb_spec (csType s) "CAPSULE") as [E2|E2]; [|split; [intros []|intros ([X|X] & _); contradiction]]].
  all: destruct (csScale s) as [sc|]; [|split; [intros []|intros (_ & (sc & X & _) & _); discriminate]]; destruct (neqb (vx sc) nzero) eqn:Z0.
  1, 3: split; [intros []|intros (_ & (sc' & X & <- & Y) & _); injection X as <-; congruence].
  all: split; [intros [H|[]]; injection H as <- <-; split; [auto|]; split; [eauto|]; destruct (csTrans s); auto|
    intros (_ & (sc' & X & <- & Y) & O); injection X as <-; left; f_equal; destruct O as [->|(-> & ->)]; reflexivity].
Qed.
(** A group of colliders is made for every static body with a round shape, on the last node of its name. *)
Theorem colliders_exact (nodes : list (cnode T)) (l : list (collider T)) id : In (l, id) (apply_colliders (map cnName nodes) (convert_colliders nodes)) <->
  exists n shapes, In n nodes /\ cnBody n = Some (true, shapes) /\ l = flat_map shape_collider shapes /\ l <> [] /\
    last_index (fun m => String.eqb m (cnName n)) (map cnName nodes) = Some id.
Proof.
  unfold apply_colliders, convert_colliders. rewrite in_flat_map. split.
  - intros ([l' nm] & Hg & Hl). cbn [fst snd] in Hl. apply in_flat_map in Hg as (n & Hn & Hg). destruct (cnBody n) as [[[|] shapes]|] eqn:Eb; [|destruct Hg|destruct Hg].
    destruct (flat_map shape_collider shapes) as [|c cs] eqn:Es; [destruct Hg|]. destruct Hg as [Hg|[]]. injection Hg as <- <-. destruct (last_index _ _) as [k|] eqn:El; [|destruct Hl]. destruct Hl as [Hl|[]]. injection Hl as <- <-.
    exists n, shapes. rewrite Es. split; [exact Hn|]. split; [exact Eb|]. split; [reflexivity|]. split; [discriminate|exact El].
  - intros (n & shapes & Hn & Eb & -> & NE & El). exists (flat_map shape_collider shapes, cnName n). cbn [fst snd]. rewrite El. split; [|left; reflexivity].
    apply in_flat_map. exists n. split; [exact Hn|]. rewrite Eb. destruct (flat_map shape_collider shapes); [contradiction|left; reflexivity].
Qed.
(** With distinct names that is the node of the body. *)
Theorem colliders_own (nodes : list (cnode T)) : NoDup (map cnName nodes) ->
  forall id n shapes l, nth_error nodes id = Some n -> cnBody n = Some (true, shapes) -> l = flat_map shape_collider shapes -> l <> [] -> In (l, id) (apply_colliders (map cnName nodes) (convert_colliders nodes)).
Proof.
  intros ND id n shapes l Hn Eb El NE. apply colliders_exact. exists n, shapes. split; [eapply nth_error_In; exact Hn|]. split; [exact Eb|]. split; [exact El|]. split; [exact NE|].
  destruct (last_index _ (map cnName nodes)) as [k|] eqn:E.
  - f_equal. destruct (last_index_Some _ _ _ E) as (a & x & b & Em & <- & Hq & _). apply String.eqb_eq in Hq. eapply NoDup_nth_error; [exact ND|rewrite Em, app_length; cbn; lia|].
    transitivity (Some x); [rewrite Em, nth_error_app2, Nat.sub_diag by lia; reflexivity|]. rewrite nth_error_map, Hn. cbn. congruence.
  - apply last_index_None in E. rewrite Forall_forall in E. assert (Hi : In (cnName n) (map cnName nodes)) by (apply in_map; eapply nth_error_In; exact Hn). specialize (E _ Hi). cbn in E. rewrite String.eqb_refl in E. discriminate.
Qed.
End Colliders.

Lemma match_asked pmatch order nodes p i : (forall l x, In x (order l) <-> In x l) -> In i (match_node_name pmatch order nodes p) <-> asked_for pmatch nodes p i.
Proof.
  intros O. unfold match_node_name, asked_for. destruct (has_char "*"%char p || has_char "?"%char p)%bool eqn:E.
  - assert (NP : ~ plain p) by (intros [A B]; rewrite A, B in E; discriminate). rewrite O, filter_In. split.
    + intros (_ & H). destruct (nth_error nodes i) as [n|] eqn:En; [|discriminate]. apply andb_true_iff in H as [H1 H2]. destruct (node_id nodes (vnName n)) as [j|] eqn:Ei; [|discriminate]. apply Nat.eqb_eq in H2. subst j. apply node_id_some in Ei. exists (vnName n). split; [exact Ei|]. split; [contradiction|auto].
    + intros (name & L & _ & H). specialize (H NP). pose proof L as ((n & Hn & <-) & _). split; [apply in_seq; split; [lia|]; cbn; apply nth_error_Some; congruence|]. rewrite Hn, H. apply node_id_some in L. rewrite L. cbn. apply Nat.eqb_refl.
  - apply orb_false_iff in E. split.
    + intros H. destruct (node_id nodes p) as [id|] eqn:Ei; [|destruct H]. destruct H as [<-|[]]. apply node_id_some in Ei. exists p. split; [exact Ei|]. split; [reflexivity|]. intros N. contradiction N.
    + intros (name & L & H & _). rewrite <- (H E). apply node_id_some in L. rewrite L. left. reflexivity.
Qed.
Theorem springs_asked pmatch order fuel nodes groups out : (forall l x, In x (order l) <-> In x l) -> Forall (fun g => fst g = []) groups -> apply_springs pmatch order fuel nodes groups [] = Some out ->
  no_overlap nodes (concat out) /\ Forall (fun r => has_mesh nodes r = false) (concat out) /\
  (forall g x, In g out -> In x g -> exists ps p, In ps groups /\ In p (snd ps) /\ asked_for pmatch nodes p x) /\
  forall ps p i, In ps groups -> In p (snd ps) -> asked_for pmatch nodes p i -> has_mesh nodes i = false -> touched nodes (concat out) i.
Proof.
  intros O F H. destruct (springs_good pmatch order fuel nodes groups out F H) as (A & B & C & D). split; [exact A|]. split; [exact B|]. split.
  - intros g x Hg Hx. destruct (C g x Hg Hx) as (ps & p & H1 & H2 & H3). exists ps, p. split; [exact H1|]. split; [exact H2|]. apply (match_asked pmatch order nodes p x O). exact H3.
  - intros ps p i H1 H2 H3. apply (D ps p i H1 H2). apply (match_asked pmatch order nodes p i O). exact H3.
Qed.
