(** The search for connected groups in [Model/Mmd2Mqo.v]. *)
From Coq Require Import List Arith Bool Lia.
From Verif.Model Require Import Mmd2Mqo.
Import ListNotations.

Section Dfs.
Variable next : nat -> list nat.

(** What a search adds to labels and visited nodes. *)
Record Grow (id : nat) (mk : nat -> nat) (acc : list nat) (mk' : nat -> nat) (acc' new : list nat) : Prop := mkGrow {
  g_acc : acc' = acc ++ new;
  g_nodup : NoDup new;
  g_in : forall x, In x new <-> mk x = 0 /\ mk' x <> 0;
  g_keep : forall x, mk x <> 0 -> mk' x = mk x;
  g_id : forall x, mk x = 0 -> mk' x = 0 \/ mk' x = id;
  g_next : forall x j, In x new -> In j (next x) -> mk' j <> 0 }.

Lemma grow_refl id mk acc : Grow id mk acc mk acc [].
Proof.
  constructor; auto.
  - rewrite app_nil_r. reflexivity.
  - constructor.
  - intros x. cbn. tauto.
Qed.

Lemma grow_mono id mk acc mk' acc' new x : Grow id mk acc mk' acc' new -> mk x <> 0 -> mk' x <> 0.
Proof. intros G H. rewrite (g_keep _ _ _ _ _ _ G) by exact H. exact H. Qed.

Lemma grow_trans id mk1 a1 mk2 a2 n1 mk3 a3 n2 :
  Grow id mk1 a1 mk2 a2 n1 -> Grow id mk2 a2 mk3 a3 n2 -> Grow id mk1 a1 mk3 a3 (n1 ++ n2).
Proof.
  intros G H. constructor.
  - rewrite (g_acc _ _ _ _ _ _ H), (g_acc _ _ _ _ _ _ G), app_assoc. reflexivity.
  - assert (D : forall x, In x n1 -> ~ In x n2).
    { intros x A B. apply (g_in _ _ _ _ _ _ G) in A. apply (g_in _ _ _ _ _ _ H) in B. tauto. }
    pose proof (g_nodup _ _ _ _ _ _ G) as N1. pose proof (g_nodup _ _ _ _ _ _ H) as N2. clear G H.
    induction n1 as [|x n1 IH]; [exact N2|]. inversion N1; subst. cbn. constructor.
    + rewrite in_app_iff. intros [A|A]; [auto|]. apply (D x); [left; reflexivity|exact A].
    + apply IH; auto. intros y A. apply D. right. exact A.
  - intros x. rewrite in_app_iff, (g_in _ _ _ _ _ _ G), (g_in _ _ _ _ _ _ H). split.
    + intros [(A & B)|(A & B)].
      * split; [exact A|]. eapply grow_mono; eauto.
      * split; [|exact B]. destruct (Nat.eq_dec (mk1 x) 0) as [E|E]; [exact E|].
        rewrite (g_keep _ _ _ _ _ _ G x E) in A. contradiction.
    + intros (A & B). destruct (Nat.eq_dec (mk2 x) 0); auto.
  - intros x A. rewrite (g_keep _ _ _ _ _ _ H); [apply (g_keep _ _ _ _ _ _ G); exact A|].
    eapply grow_mono; eauto.
  - intros x A. destruct (g_id _ _ _ _ _ _ G x A) as [E|E].
    + apply (g_id _ _ _ _ _ _ H). exact E.
    + destruct (Nat.eq_dec (mk2 x) 0) as [Z|Z]; [apply (g_id _ _ _ _ _ _ H); exact Z|].
      right. rewrite (g_keep _ _ _ _ _ _ H x Z). exact E.
  - intros x j A B. apply in_app_iff in A. destruct A as [A|A].
    + eapply grow_mono; [exact H|]. eapply (g_next _ _ _ _ _ _ G); eauto.
    + eapply (g_next _ _ _ _ _ _ H); eauto.
Qed.

(** The step of the loop in [dfs]. *)
Definition visit (f id : nat) (st : option ((nat -> nat) * list nat)) (j : nat) : option ((nat -> nat) * list nat) :=
  match st with
  | None => None
  | Some (mk, acc) => if Nat.eqb (mk j) 0 then dfs f next mk j id acc else Some (mk, acc)
  end.
Lemma dfs_step f mk i id acc : dfs (S f) next mk i id acc =
  fold_left (visit f id) (next i) (Some (fset mk i id, acc ++ [i])).
Proof. reflexivity. Qed.
Lemma visit_none f id l : fold_left (visit f id) l None = None.
Proof. induction l; auto. Qed.

Lemma dfs_grow f : forall mk i id acc mk' acc', mk i = 0 -> id <> 0 -> dfs f next mk i id acc = Some (mk', acc') ->
  exists new, Grow id mk acc mk' acc' new /\ In i new.
Proof.
  induction f as [|f IH]; intros mk i id acc mk' acc' Hi Hid E; [discriminate|]. rewrite dfs_step in E.
  assert (L : forall l mk1 a1 mk2 a2, fold_left (visit f id) l (Some (mk1, a1)) = Some (mk2, a2) ->
            exists new, Grow id mk1 a1 mk2 a2 new /\ (forall j, In j l -> mk2 j <> 0)).
  { induction l as [|j l IHl]; intros mk1 a1 mk2 a2 E1.
    - injection E1 as <- <-. exists []. split; [apply grow_refl|contradiction].
    - cbn [fold_left visit] in E1. destruct (Nat.eqb_spec (mk1 j) 0) as [Ej|Ej].
      + destruct (dfs f next mk1 j id a1) as [[mk3 a3]|] eqn:E3; [|rewrite visit_none in E1; discriminate].
        destruct (IH _ _ _ _ _ _ Ej Hid E3) as (n1 & G1 & I1).
        destruct (IHl _ _ _ _ E1) as (n2 & G2 & I2). exists (n1 ++ n2). split; [eapply grow_trans; eauto|].
        intros x [<-|Hx]; [|auto]. eapply grow_mono; [exact G2|]. apply (g_in _ _ _ _ _ _ G1) in I1. tauto.
      + destruct (IHl _ _ _ _ E1) as (n2 & G2 & I2). exists n2. split; [exact G2|].
        intros x [<-|Hx]; [|auto]. eapply grow_mono; eauto. }
  destruct (L _ _ _ _ _ E) as (new & G & D).
  assert (Fi : fset mk i id i = id) by (unfold fset; rewrite Nat.eqb_refl; reflexivity).
  assert (Fx : forall x, x <> i -> fset mk i id x = mk x).
  { intros x Hx. unfold fset. destruct (Nat.eqb_spec x i); [contradiction|reflexivity]. }
  assert (Mi : mk' i = id) by (rewrite (g_keep _ _ _ _ _ _ G); rewrite Fi; auto).
  assert (Ni : ~ In i new).
  { intros A. apply (g_in _ _ _ _ _ _ G) in A. rewrite Fi in A. tauto. }
  exists (i :: new). split; [|left; reflexivity]. constructor.
  - rewrite (g_acc _ _ _ _ _ _ G), <- app_assoc. reflexivity.
  - constructor; [exact Ni|]. apply (g_nodup _ _ _ _ _ _ G).
  - intros x. destruct (Nat.eq_dec x i) as [->|Hx].
    + split; [intros _; rewrite Mi; auto|intros _; left; reflexivity].
    + rewrite <- (Fx x Hx). rewrite <- (g_in _ _ _ _ _ _ G). split; [intros [A|A]; [congruence|exact A]|right; assumption].
  - intros x A. assert (x <> i) by congruence. rewrite (g_keep _ _ _ _ _ _ G); rewrite Fx; auto.
  - intros x A. destruct (Nat.eq_dec x i) as [->|Hx]; [auto|]. apply (g_id _ _ _ _ _ _ G). rewrite Fx; auto.
  - intros x j [<-|A] B; [apply D; exact B|]. eapply (g_next _ _ _ _ _ _ G); eauto.
Qed.

(** Enough fuel: one more than the nodes without a label. *)
Definition zeros (n : nat) (mk : nat -> nat) : nat := length (filter (fun x => Nat.eqb (mk x) 0) (seq 0 n)).
Lemma filter_length_le {A} (p q : A -> bool) l : (forall x, In x l -> p x = true -> q x = true) ->
  length (filter p l) <= length (filter q l).
Proof.
  induction l as [|a l IH]; intros H; [auto|]. cbn [filter].
  assert (H' : forall x, In x l -> p x = true -> q x = true) by (intros; apply H; [right|]; auto).
  specialize (IH H'). specialize (H a (or_introl eq_refl)). destruct (p a), (q a); cbn [length]; try lia; specialize (H eq_refl); discriminate.
Qed.
Lemma filter_length_lt {A} (p q : A -> bool) l a : In a l -> p a = false -> q a = true ->
  (forall x, In x l -> p x = true -> q x = true) -> length (filter p l) < length (filter q l).
Proof.
  induction l as [|b l IH]; intros I Pa Qa H; [contradiction|]. cbn [filter].
  assert (H' : forall x, In x l -> p x = true -> q x = true) by (intros; apply H; [right|]; auto).
  destruct I as [->|I].
  - rewrite Pa, Qa. cbn [length]. pose proof (filter_length_le p q l H'). lia.
  - specialize (IH I Pa Qa H'). specialize (H b (or_introl eq_refl)). destruct (p b), (q b); cbn [length]; try lia; specialize (H eq_refl); discriminate.
Qed.
Lemma zeros_grow n id mk a mk' a' new : Grow id mk a mk' a' new -> zeros n mk' <= zeros n mk.
Proof.
  intros G. apply filter_length_le. intros x _ H. apply Nat.eqb_eq in H. apply Nat.eqb_eq.
  destruct (Nat.eq_dec (mk x) 0) as [E|E]; [exact E|]. rewrite (g_keep _ _ _ _ _ _ G x E) in H. contradiction.
Qed.
Lemma zeros_set n id mk i : i < n -> mk i = 0 -> id <> 0 -> zeros n (fset mk i id) < zeros n mk.
Proof.
  intros Hi Hm Hid. eapply filter_length_lt with (a := i).
  - apply in_seq. lia.
  - unfold fset. rewrite Nat.eqb_refl. apply Nat.eqb_neq. exact Hid.
  - apply Nat.eqb_eq. exact Hm.
  - intros x _ H. apply Nat.eqb_eq in H. unfold fset in H. destruct (Nat.eqb x i); [congruence|].
    apply Nat.eqb_eq. exact H.
Qed.
Lemma zeros_pos n mk i : i < n -> mk i = 0 -> 0 < zeros n mk.
Proof.
  intros Hi Hm. unfold zeros. assert (In i (filter (fun x => Nat.eqb (mk x) 0) (seq 0 n))).
  { apply filter_In. split; [apply in_seq; lia|apply Nat.eqb_eq; exact Hm]. }
  destruct (filter _ (seq 0 n)); [contradiction|cbn; lia].
Qed.
Lemma zeros_le n mk : zeros n mk <= n.
Proof.
  unfold zeros. transitivity (length (filter (fun _ => true) (seq 0 n))).
  - apply filter_length_le. auto.
  - generalize 0. induction n as [|n IH]; intros s; [cbn; lia|]. cbn [seq filter length]. specialize (IH (S s)). lia.
Qed.

Lemma dfs_total n f : forall mk i id acc, (forall x j, x < n -> In j (next x) -> j < n) ->
  i < n -> mk i = 0 -> id <> 0 -> zeros n mk <= f -> dfs f next mk i id acc <> None.
Proof.
  induction f as [|f IH]; intros mk i id acc Hn Hi Hm Hid Hf.
  - pose proof (zeros_pos n mk i Hi Hm). lia.
  - rewrite dfs_step.
    assert (L : forall l mk1 a1, (forall j, In j l -> j < n) -> zeros n mk1 <= f -> fold_left (visit f id) l (Some (mk1, a1)) <> None).
    { induction l as [|j l IHl]; intros mk1 a1 Hl Hz; [discriminate|]. cbn [fold_left visit].
      destruct (Nat.eqb_spec (mk1 j) 0) as [Ej|Ej].
      - pose proof (IH mk1 j id a1 Hn (Hl j (or_introl eq_refl)) Ej Hid Hz) as T.
        destruct (dfs f next mk1 j id a1) as [[mk3 a3]|] eqn:E3; [|congruence].
        destruct (dfs_grow f _ _ _ _ _ _ Ej Hid E3) as (n1 & G1 & _).
        apply IHl; [intros; apply Hl; right; assumption|]. pose proof (zeros_grow n _ _ _ _ _ _ G1). lia.
      - apply IHl; [intros; apply Hl; right; assumption|exact Hz]. }
    apply L; [intros j Hj; eapply Hn; eauto|]. pose proof (zeros_set n id mk i Hi Hm Hid). lia.
Qed.

(** *** All groups *)
Variable n : nat.
Hypothesis bound : forall x j, x < n -> In j (next x) -> j < n.
Hypothesis sym : forall x j, x < n -> In j (next x) -> In x (next j).

Record Groups (mk : nat -> nat) (gs : list (list nat)) : Prop := mkGroups {
  gr_zero : nth 0 gs [] = [];
  gr_len : 0 < length gs;
  gr_in : forall g x, In x (nth g gs []) <-> g <> 0 /\ mk x = g;
  gr_lt : forall x, mk x < length gs;
  gr_n : forall x, mk x <> 0 -> x < n;
  gr_closed : forall x j, mk x <> 0 -> In j (next x) -> mk j = mk x;
  gr_nodup : forall g, NoDup (nth g gs []) }.

Lemma groups_init : Groups (fun _ => 0) [[]].
Proof.
  constructor; auto; try (cbn; lia); try contradiction; try (intros; cbn; lia).
  - intros [|[|g]] x; cbn; intuition (try lia; try contradiction).
  - intros [|[|g]]; cbn; constructor.
Qed.

Lemma groups_add f mk gs i mk' g : Groups mk gs -> i < n -> mk i = 0 ->
  dfs f next mk i (length gs) [] = Some (mk', g) -> Groups mk' (gs ++ [g]) /\ mk' i <> 0 /\ (forall x, mk x <> 0 -> mk' x <> 0) /\
  (forall x, In x g -> x < n).
Proof.
  intros I Hi Hm E. pose proof (gr_len _ _ I) as Hl. assert (Hid : length gs <> 0) by lia.
  destruct (dfs_grow f _ _ _ _ _ _ Hm Hid E) as (new & G & Ii).
  pose proof (g_acc _ _ _ _ _ _ G) as Ea. cbn [app] in Ea. subst g.
  assert (Hnew : forall x, In x new -> mk' x = length gs).
  { intros x A. apply (g_in _ _ _ _ _ _ G) in A as (A & B). destruct (g_id _ _ _ _ _ _ G x A); [contradiction|assumption]. }
  assert (Hn : forall x, In x new -> x < n).
  { intros x A. destruct (Nat.lt_ge_cases x n) as [L|L]; [exact L|exfalso].
    (* every node met is below the bound: by the same search with fuel *)
    revert A. clear Ii Hnew. revert x L.
    assert (K : forall f mk i id acc mk' acc', i < n -> dfs f next mk i id acc = Some (mk', acc') ->
              (forall x, In x acc -> x < n) -> forall x, In x acc' -> x < n).
    { clear - bound. induction f as [|f IH]; intros mk i id acc mk' acc' Hi E Ha; [discriminate|]. rewrite dfs_step in E.
      assert (L : forall l mk1 a1, (forall j, In j l -> j < n) -> (forall x, In x a1 -> x < n) ->
                  fold_left (visit f id) l (Some (mk1, a1)) = Some (mk', acc') -> forall x, In x acc' -> x < n).
      { induction l as [|j l IHl]; intros mk1 a1 Hl Ha1 E1.
        - injection E1 as <- <-. exact Ha1.
        - cbn [fold_left visit] in E1. destruct (Nat.eqb (mk1 j) 0).
          + destruct (dfs f next mk1 j id a1) as [[mk3 a3]|] eqn:E3; [|rewrite visit_none in E1; discriminate].
            eapply IHl; [|eapply IH; [|exact E3|exact Ha1]|exact E1]; [intros; apply Hl; right; assumption|apply Hl; left; reflexivity].
          + eapply IHl; [|exact Ha1|exact E1]. intros; apply Hl; right; assumption. }
      eapply L; [|..|exact E]; [intros j Hj; eapply bound; eauto|].
      intros x Hx. apply in_app_iff in Hx as [Hx|[<-|[]]]; auto. }
    intros x L A. specialize (K f mk i (length gs) [] mk' new Hi E ltac:(contradiction) x A). lia. }
  assert (Hcl : forall x j, In x new -> In j (next x) -> mk' j = length gs).
  { intros x j A B. pose proof (g_next _ _ _ _ _ _ G x j A B) as Nz.
    destruct (Nat.eq_dec (mk j) 0) as [Z|Z].
    - destruct (g_id _ _ _ _ _ _ G j Z); [contradiction|assumption].
    - exfalso. apply sym in B; [|auto]. pose proof (gr_closed _ _ I j x Z B) as C.
      apply (g_in _ _ _ _ _ _ G) in A as (A & _). congruence. }
  split; [constructor|split; [|split]].
  - rewrite app_nth1 by lia. apply (gr_zero _ _ I).
  - rewrite app_length. lia.
  - intros g x. destruct (Nat.lt_ge_cases g (length gs)) as [L|L].
    + rewrite app_nth1 by lia. rewrite (gr_in _ _ I). split.
      * intros (A & B). split; [exact A|]. rewrite (g_keep _ _ _ _ _ _ G); [exact B|congruence].
      * intros (A & B). split; [exact A|]. destruct (Nat.eq_dec (mk x) 0) as [Z|Z].
        -- destruct (g_id _ _ _ _ _ _ G x Z); lia.
        -- rewrite <- (g_keep _ _ _ _ _ _ G x Z). exact B.
    + rewrite app_nth2 by lia. destruct (g - length gs) as [|d] eqn:D.
      * cbn [nth]. assert (g = length gs) by lia. subst g. split.
        -- intros A. split; [lia|]. apply Hnew. exact A.
        -- intros (_ & B). apply (g_in _ _ _ _ _ _ G). split; [|lia].
           destruct (Nat.eq_dec (mk x) 0) as [Z|Z]; [exact Z|]. rewrite (g_keep _ _ _ _ _ _ G x Z) in B.
           pose proof (gr_lt _ _ I x). lia.
      * cbn [nth]. destruct d; cbn [nth].
        -- split; [contradiction|]. intros (_ & B). exfalso. destruct (Nat.eq_dec (mk x) 0) as [Z|Z].
           ++ destruct (g_id _ _ _ _ _ _ G x Z); lia.
           ++ rewrite (g_keep _ _ _ _ _ _ G x Z) in B. pose proof (gr_lt _ _ I x). lia.
        -- split; [contradiction|]. intros (_ & B). exfalso. destruct (Nat.eq_dec (mk x) 0) as [Z|Z].
           ++ destruct (g_id _ _ _ _ _ _ G x Z); lia.
           ++ rewrite (g_keep _ _ _ _ _ _ G x Z) in B. pose proof (gr_lt _ _ I x). lia.
  - intros x. rewrite app_length. cbn [length]. destruct (Nat.eq_dec (mk x) 0) as [Z|Z].
    + destruct (g_id _ _ _ _ _ _ G x Z); lia.
    + rewrite (g_keep _ _ _ _ _ _ G x Z). pose proof (gr_lt _ _ I x). lia.
  - intros x A. destruct (Nat.eq_dec (mk x) 0) as [Z|Z]; [|apply (gr_n _ _ I); exact Z].
    apply Hn. apply (g_in _ _ _ _ _ _ G). auto.
  - intros x j A B. destruct (Nat.eq_dec (mk x) 0) as [Z|Z].
    + assert (X : In x new) by (apply (g_in _ _ _ _ _ _ G); auto). rewrite (Hnew x X). eauto.
    + rewrite (g_keep _ _ _ _ _ _ G x Z). pose proof (gr_closed _ _ I x j Z B) as C.
      rewrite (g_keep _ _ _ _ _ _ G); [exact C|congruence].
  - intros g. destruct (Nat.lt_ge_cases g (length gs)) as [L|L].
    + rewrite app_nth1 by lia. apply (gr_nodup _ _ I).
    + rewrite app_nth2 by lia. destruct (g - length gs) as [|[|d]]; cbn; try constructor. apply (g_nodup _ _ _ _ _ _ G).
  - apply (g_in _ _ _ _ _ _ G) in Ii. tauto.
  - intros x A. eapply grow_mono; eauto.
  - exact Hn.
Qed.

Lemma grouping_spec f start nodes : forall mk gs mk' gs', Groups mk gs -> (forall x, In x nodes -> x < n) ->
  grouping f next start nodes mk gs = Some (mk', gs') ->
  Groups mk' gs' /\ (forall x, In x nodes -> start x = true -> mk' x <> 0) /\ (forall x, mk x <> 0 -> mk' x <> 0).
Proof.
  induction nodes as [|i r IH]; intros mk gs mk' gs' I Hn E; cbn [grouping] in E.
  - injection E as <- <-. split; [exact I|]. split; [contradiction|auto].
  - assert (Hr : forall x, In x r -> x < n) by (intros; apply Hn; right; assumption).
    destruct (start i) eqn:Es; cbn [andb] in E; [destruct (Nat.eqb_spec (mk i) 0) as [Z|Z]|].
    + destruct (dfs f next mk i (length gs) []) as [[mk1 g]|] eqn:D; [|discriminate].
      destruct (groups_add f mk gs i mk1 g I (Hn i (or_introl eq_refl)) Z D) as (I1 & A & B & _).
      destruct (IH _ _ _ _ I1 Hr E) as (C & X & Y). split; [exact C|]. split; [|auto].
      intros x [<-|Hx] S; auto.
    + destruct (IH _ _ _ _ I Hr E) as (C & X & Y). split; [exact C|]. split; [|auto].
      intros x [<-|Hx] S; auto.
    + destruct (IH _ _ _ _ I Hr E) as (C & X & Y). split; [exact C|]. split; [|auto].
      intros x [<-|Hx] S; [congruence|auto].
Qed.

Lemma grouping_total f start nodes : forall mk gs, Groups mk gs -> (forall x, In x nodes -> x < n) -> n <= f ->
  grouping f next start nodes mk gs <> None.
Proof.
  induction nodes as [|i r IH]; intros mk gs I Hn Hf; [discriminate|]. cbn [grouping].
  assert (Hr : forall x, In x r -> x < n) by (intros; apply Hn; right; assumption).
  destruct (start i); cbn [andb]; [|auto]. destruct (Nat.eqb_spec (mk i) 0) as [Z|Z]; [|auto].
  pose proof (dfs_total n f mk i (length gs) [] bound (Hn i (or_introl eq_refl)) Z) as T.
  pose proof (gr_len _ _ I). pose proof (zeros_le n mk).
  destruct (dfs f next mk i (length gs) []) as [[mk1 g]|] eqn:D; [|exfalso; apply T; [lia|lia|reflexivity]].
  destruct (groups_add f mk gs i mk1 g I (Hn i (or_introl eq_refl)) Z D) as (I1 & _). auto.
Qed.

(** Groups contain only nodes that may start one, or are reached from one. *)
Lemma grouping_start f start nodes (P : nat -> Prop) : (forall x, start x = true -> P x) ->
  (forall x j, P x -> In j (next x) -> P j) ->
  forall mk gs mk' gs', grouping f next start nodes mk gs = Some (mk', gs') ->
  (forall g x, In x (nth g gs []) -> P x) -> forall g x, In x (nth g gs' []) -> P x.
Proof.
  intros Hs Hp. induction nodes as [|i r IH]; intros mk gs mk' gs' E H; cbn [grouping] in E.
  - injection E as <- <-. exact H.
  - destruct (start i) eqn:Es; cbn [andb] in E; [destruct (Nat.eqb (mk i) 0)|]; try (eapply IH; eassumption).
    destruct (dfs f next mk i (length gs) []) as [[mk1 g1]|] eqn:D; [|discriminate].
    eapply IH; [exact E|]. intros g x A. destruct (Nat.lt_ge_cases g (length gs)) as [L|L].
    + rewrite app_nth1 in A by lia. eauto.
    + rewrite app_nth2 in A by lia. destruct (g - length gs) as [|[|d]]; cbn in A; try contradiction.
      revert A. revert D. generalize (length gs). intros id D.
      assert (K : forall f mk i id acc mk' acc', P i -> dfs f next mk i id acc = Some (mk', acc') ->
                (forall x, In x acc -> P x) -> forall x, In x acc' -> P x).
      { clear - Hp. induction f as [|f IH]; intros mk i id acc mk' acc' Hi E Ha; [discriminate|]. rewrite dfs_step in E.
        assert (L : forall l mk1 a1, (forall j, In j l -> P j) -> (forall x, In x a1 -> P x) ->
                    fold_left (visit f id) l (Some (mk1, a1)) = Some (mk', acc') -> forall x, In x acc' -> P x).
        { induction l as [|j l IHl]; intros mk1 a1 Hl Ha1 E1.
          - injection E1 as <- <-. exact Ha1.
          - cbn [fold_left visit] in E1. destruct (Nat.eqb (mk1 j) 0).
            + destruct (dfs f next mk1 j id a1) as [[mk3 a3]|] eqn:E3; [|rewrite visit_none in E1; discriminate].
              eapply IHl; [|eapply IH; [|exact E3|exact Ha1]|exact E1]; [intros; apply Hl; right; assumption|apply Hl; left; reflexivity].
            + eapply IHl; [|exact Ha1|exact E1]. intros; apply Hl; right; assumption. }
        eapply L; [|..|exact E]; [intros j Hj; eapply Hp; eauto|].
        intros x Hx. apply in_app_iff in Hx as [Hx|[<-|[]]]; auto. }
      eapply K; [|exact D|contradiction]. auto.
Qed.
End Dfs.
