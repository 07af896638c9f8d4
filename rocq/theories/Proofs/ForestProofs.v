(** Walking a forest depth first meets everything once. *)
From Coq Require Import List Arith Lia.
Import ListNotations.

Section Forest.
Context {A : Type}.
Variable N : A -> Prop.
Variable kids : A -> list A.
Variable dep : A -> nat.
Hypothesis kids_once : forall x, N x -> NoDup (kids x).
Hypothesis kids_in : forall x c, N x -> In c (kids x) -> N c /\ dep c = S (dep x).
Hypothesis kids_one : forall x y c, N x -> N y -> In c (kids x) -> In c (kids y) -> x = y.

Fixpoint tree (n d : nat) (x : A) : list (A * nat) :=
  match n with
  | O => []
  | S m => (x, d) :: flat_map (tree m (S d)) (kids x)
  end.
Inductive chain : nat -> A -> A -> Prop :=
| chain0 x : chain 0 x x
| chainS k x y z : chain k x y -> In z (kids y) -> chain (S k) x z.
Lemma chain_front k x c y : In c (kids x) -> chain k c y -> chain (S k) x y.
Proof. intro I. induction 1 as [c|k c y z C IH J]; [econstructor; [constructor|exact I]|]. econstructor; [now apply IH|exact J]. Qed.
Lemma chain_node k x y : N x -> chain k x y -> N y /\ dep y = dep x + k.
Proof.
  intros H C. induction C as [x|k x y z C IH I]; [split; [exact H|lia]|]. destruct (IH H) as [A1 A2]. destruct (kids_in y z A1 I) as [B1 B2]. split; [exact B1|lia].
Qed.
Lemma chain_same k : forall a b y, N a -> N b -> chain k a y -> chain k b y -> a = b.
Proof.
  induction k as [|k IH]; intros a b y Na Nb C1 C2; inversion C1; subst; inversion C2; subst; [reflexivity|].
  assert (E : y0 = y1) by (apply (kids_one y0 y1 y); [now apply (chain_node k a)|now apply (chain_node k b)|assumption|assumption]). subst y1. now apply (IH a b y0).
Qed.
Lemma chain_back k x y : chain (S k) x y -> exists c, In c (kids x) /\ chain k c y.
Proof.
  revert y. induction k as [|k IH]; intros y C; inversion C; subst.
  - match goal with H : chain 0 _ _ |- _ => inversion H; subst end. exists y. split; [assumption|constructor].
  - match goal with H : chain (S k) x ?z |- _ => destruct (IH z H) as (c & I & D) end. exists c. split; [exact I|]. econstructor; eassumption.
Qed.
Lemma tree_in n : forall d x y e, In (y, e) (tree n d x) <-> exists k, k < n /\ chain k x y /\ e = d + k.
Proof.
  induction n as [|n IH]; intros d x y e; cbn [tree]; [split; [intros []|intros (k & K & _); lia]|]. cbn [In]. rewrite in_flat_map. split.
  - intros [H|(c & I & H)].
    + injection H as <- <-. exists 0. repeat split; [lia|constructor|lia].
    + apply IH in H. destruct H as (k & K & C & ->). exists (S k). repeat split; [lia|now apply (chain_front k x c)|lia].
  - intros (k & K & C & ->). destruct k as [|k]; [left; inversion C; subst; f_equal; lia|]. right. apply chain_back in C. destruct C as (c & I & C). exists c. split; [exact I|].
    apply IH. exists k. repeat split; [lia|exact C|lia].
Qed.
Lemma disjoint_flat (f : A -> list A) l : NoDup l -> (forall a, In a l -> NoDup (f a)) -> (forall a b y, In a l -> In b l -> In y (f a) -> In y (f b) -> a = b) -> NoDup (flat_map f l).
Proof.
  induction 1 as [|a l Ha Hl IH]; intros F D; cbn [flat_map]; [constructor|].
  assert (X : NoDup (flat_map f l)) by (apply IH; [intros b I; apply F; now right|intros b c y I J; apply D; now right]).
  assert (Y : forall y, In y (f a) -> ~ In y (flat_map f l)).
  { intros y I J. apply in_flat_map in J. destruct J as (b & B1 & B2). assert (a = b) by (apply (D a b y); [now left|now right|exact I|exact B2]). congruence. }
  assert (Z := F a (or_introl eq_refl)). induction (f a) as [|z m IHm]; [exact X|]. cbn [app]. inversion Z as [|? ? Z1 Z2]; subst. constructor.
  - intro I. apply in_app_or in I. destruct I as [I|I]; [contradiction|]. apply (Y z); [now left|exact I].
  - apply IHm; [intros y I; apply Y; now right|exact Z2].
Qed.
Lemma map_flat (n d : nat) l : map fst (flat_map (tree n d) l) = flat_map (fun x => map fst (tree n d x)) l.
Proof. induction l; [reflexivity|]. cbn [flat_map]. now rewrite map_app, IHl. Qed.
Lemma trees_once n d l : NoDup l -> (forall x, In x l -> N x) -> (forall x y, In x l -> In y l -> dep x = dep y) -> (forall x, In x l -> NoDup (map fst (tree n d x))) ->
  NoDup (map fst (flat_map (tree n d) l)).
Proof.
  intros Hl HN HD HT. rewrite map_flat. apply disjoint_flat; [exact Hl|exact HT|]. intros a b y Ia Ib Ya Yb.
  apply in_map_iff in Ya. destruct Ya as ([y1 e1] & E1 & Y1). apply in_map_iff in Yb. destruct Yb as ([y2 e2] & E2 & Y2). cbn [fst] in *. subst y1 y2.
  apply tree_in in Y1. apply tree_in in Y2. destruct Y1 as (k1 & _ & C1 & _), Y2 as (k2 & _ & C2 & _).
  destruct (chain_node k1 a y (HN a Ia) C1) as [_ D1]. destruct (chain_node k2 b y (HN b Ib) C2) as [_ D2]. specialize (HD a b Ia Ib).
  assert (k1 = k2) by lia. subst k2. now apply (chain_same k1 a b y); [apply HN|apply HN| |].
Qed.
Lemma tree_once n : forall d x, N x -> NoDup (map fst (tree n d x)).
Proof.
  induction n as [|n IH]; intros d x H; cbn [tree map]; [constructor|]. constructor.
  - cbn [fst]. intro I. apply in_map_iff in I. destruct I as ([y e] & E & I). cbn [fst] in E. subst y. apply in_flat_map in I. destruct I as (c & I & J). apply tree_in in J. destruct J as (k & _ & C & _).
    destruct (chain_node (S k) x x H (chain_front k x c x I C)) as [_ D]. lia.
  - apply trees_once; [now apply kids_once|intros c I; now apply (kids_in x)| |intros c I; apply IH; now apply (kids_in x)].
    intros a b I J. destruct (kids_in x a H I) as [_ ->]. destruct (kids_in x b H J) as [_ ->]. reflexivity.
Qed.
(** From all roots. *)
Variable roots : list A.
Hypothesis roots_once : NoDup roots.
Hypothesis roots_in : forall x, In x roots <-> N x /\ dep x = 0.
Hypothesis has_parent : forall x, N x -> dep x <> 0 -> exists y, N y /\ In x (kids y).
Lemma from_root : forall n y, N y -> dep y = n -> exists x, In x roots /\ chain n x y.
Proof.
  induction n as [|n IH]; intros y H E.
  - exists y. split; [apply roots_in; auto|constructor].
  - destruct (has_parent y H) as (z & Z & I); [lia|]. destruct (kids_in z y Z I) as [_ D]. destruct (IH z Z) as (x & X & C); [lia|]. exists x. split; [exact X|]. econstructor; eassumption.
Qed.
Lemma forest_once n : NoDup (map fst (flat_map (tree n 0) roots)).
Proof.
  apply trees_once; [exact roots_once|intros x I; now apply roots_in|intros x y I J|intros x I; apply tree_once; now apply roots_in].
  apply roots_in in I. apply roots_in in J. lia.
Qed.
Lemma forest_all n y e : (forall x, N x -> dep x < n) -> (In (y, e) (flat_map (tree n 0) roots) <-> N y /\ e = dep y).
Proof.
  intro B. rewrite in_flat_map. split.
  - intros (x & X & I). apply roots_in in X. apply tree_in in I. destruct I as (k & _ & C & ->). destruct (chain_node k x y (proj1 X) C) as [H D]. split; [exact H|lia].
  - intros [H ->]. destruct (from_root (dep y) y H eq_refl) as (x & X & C). exists x. split; [exact X|]. apply tree_in. exists (dep y). repeat split; [now apply B|exact C].
Qed.
End Forest.
