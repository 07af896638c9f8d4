(** Lists, triangles and skins, for the whole way from PMX to glTF. *)
From Coq Require Import String List ZArith Bool Lia Permutation PeanoNat.
From Verif.Model Require Import Num Vec Matrix Mqo MqoDoc Mmd2Mqo Gltf.
From Verif Require Import Spec.Surface Spec.MqoSpec Spec.NormalsSpec Spec.MmdConvSpec Spec.GltfSpec Spec.DrawnSpec.
From Verif Require Import Proofs.Mqo2MmdProofs Proofs.Mmd2MqoFaces Proofs.Mmd2MqoProofs.
Import ListNotations.
Local Open Scope Z_scope.
Local Open Scope list_scope.

(** *** Lists *)

Definition okey (a b : option Z) : bool := match a, b with Some x, Some y => x =? y | _, _ => false end.
Definition odef (a : option Z) : bool := match a with Some _ => true | None => false end.
Lemma okey_spec a b : okey a b = true <-> a <> None /\ a = b.
Proof.
  destruct a as [x|], b as [y|]; cbn; try (split; [discriminate|intros (A & B); congruence]).
  split; [intros E; apply Z.eqb_eq in E; split; congruence|]. intros (_ & [= ->]). apply Z.eqb_refl.
Qed.
Lemma filter_nil {A} (f : A -> bool) l : (forall x, In x l -> f x = false) -> filter f l = [].
Proof. induction l as [|x l IH]; intros H; [reflexivity|]. cbn. rewrite (H x (or_introl eq_refl)). apply IH. intros; apply H; right; assumption. Qed.
Lemma flat_map_nil {A B} (f : A -> list B) l : (forall x, In x l -> f x = []) -> flat_map f l = [].
Proof. induction l as [|x l IH]; intros H; [reflexivity|]. cbn. rewrite (H x (or_introl eq_refl)). apply IH. intros; apply H; right; assumption. Qed.
Lemma flat_map_ext_in {A B} (f g : A -> list B) l : (forall x, In x l -> f x = g x) -> flat_map f l = flat_map g l.
Proof. induction l as [|x l IH]; intros H; [reflexivity|]. cbn. rewrite (H x (or_introl eq_refl)), IH; [reflexivity|]. intros; apply H; right; assumption. Qed.
(** Elements sorted into groups by their keys. *)
Lemma group_perm {A} (key : A -> option Z) ks l : NoDup ks -> (forall x, In x l -> key x <> None -> In (key x) ks) ->
  Permutation (flat_map (fun k => filter (fun x => okey (key x) k) l) ks) (filter (fun x => odef (key x)) l).
Proof.
  intros Nd. induction l as [|x l IH]; intros H.
  - cbn. rewrite flat_map_nil; [constructor|reflexivity].
  - specialize (IH ltac:(intros; apply H; [right|]; assumption)). cbn [filter]. destruct (key x) as [k|] eqn:Ek.
    + assert (Hin : In (Some k) ks) by (rewrite <- Ek; apply H; [left; reflexivity|congruence]).
      cbn [odef]. apply in_split in Hin as (k1 & k2 & ->). rewrite flat_map_app in *. cbn [flat_map] in *.
      assert (O : forall ks', ~ In (Some k) ks' -> flat_map (fun k0 => if okey (Some k) k0 then x :: filter (fun x0 => okey (key x0) k0) l else filter (fun x0 => okey (key x0) k0) l) ks' =
                              flat_map (fun k0 => filter (fun x0 => okey (key x0) k0) l) ks').
      { intros ks' Hn. apply flat_map_ext_in. intros k0 Hk. destruct (okey (Some k) k0) eqn:Q; [|reflexivity]. apply okey_spec in Q as (_ & <-). contradiction. }
      pose proof (NoDup_remove_2 _ _ _ Nd) as Nr.
      rewrite (O k1), (O k2) by (intros C; apply Nr, in_app_iff; auto). cbn [okey]. rewrite Z.eqb_refl. cbn [app].
      apply Permutation_sym, Permutation_cons_app, Permutation_sym. exact IH.
    + cbn [odef]. eapply Permutation_trans; [|exact IH]. erewrite flat_map_ext_in; [apply Permutation_refl|]. reflexivity.
Qed.
Lemma filter_perm {A} (f : A -> bool) l l' : Permutation l l' -> Permutation (filter f l) (filter f l').
Proof.
  induction 1 as [|x l l' P IH|x y l|l1 l2 l3 P1 IH1 P2 IH2]; [constructor| | |eapply Permutation_trans; eassumption].
  - cbn. destruct (f x); [constructor|]; exact IH.
  - cbn. destruct (f x), (f y); try apply Permutation_refl. constructor.
Qed.
Lemma forall2_filter {A B} (R : A -> B -> Prop) (f : A -> bool) (h : B -> bool) l l' : Forall2 R l l' -> (forall a b, R a b -> f a = h b) -> Forall2 R (filter f l) (filter h l').
Proof.
  intros F H. induction F as [|a b l l' Hr F IH]; [constructor|]. cbn. rewrite (H a b Hr). destruct (h b); [constructor; assumption|exact IH].
Qed.
Lemma forall2_trans {A B C} (R : A -> B -> Prop) (S0 : B -> C -> Prop) (Q : A -> C -> Prop) l m n : (forall a b c, R a b -> S0 b c -> Q a c) -> Forall2 R l m -> Forall2 S0 m n -> Forall2 Q l n.
Proof. intros H F. revert n. induction F; intros n G; inversion G; subst; constructor; eauto. Qed.
Lemma forall2_functional {A B} (R : A -> B -> Prop) l m m' : (forall a b b', R a b -> R a b' -> b = b') -> Forall2 R l m -> Forall2 R l m' -> m = m'.
Proof. intros H F. revert m'. induction F; intros m' G; inversion G; subst; [reflexivity|]. f_equal; eauto. Qed.
Lemma triples_concat ts : Forall (fun t => exists a b c, t = [a; b; c]) ts -> Forall2 (fun t u => let '(a, b, c) := u in t = [a; b; c]) ts (triples (concat ts)).
Proof. induction 1 as [|t ts (a & b & c & ->) F IH]; [constructor|]. cbn. constructor; [reflexivity|exact IH]. Qed.
Lemma owner_valid mats : forall idx fi i, owner mats idx fi = Some i -> 0 <= idx -> idx <= i < idx + Z.of_nat (length mats).
Proof.
  induction mats as [|m r IH]; intros idx fi i E H; cbn [owner] in E; [discriminate|]. cbv zeta in E. destruct (fi <? Z.to_nat (pmCount m / 3))%nat; [injection E as <-; cbn [length]; lia|].
  apply IH in E; [|lia]. cbn [length]. lia.
Qed.

(** *** A triangle cut into triangles *)

Definition turns (t : nat * nat * nat) : Prop := t = (0, 1, 2)%nat \/ t = (1, 2, 0)%nat \/ t = (2, 0, 1)%nat.
Lemma one_triangle t : dissects (seq 0 3) [t] -> turns t.
Proof.
  intros (diag & P). destruct t as [[a b] c]. cbn in P. pose proof (Permutation_length P) as L. cbn in L.
  destruct diag as [|x diag]; [|cbn in L; lia]. cbn in P.
  assert (A : In (a, b) [(0, 1); (1, 2); (2, 0)]%nat) by (eapply Permutation_in; [exact P|left; reflexivity]).
  assert (B : In (b, c) [(0, 1); (1, 2); (2, 0)]%nat) by (eapply Permutation_in; [exact P|right; left; reflexivity]).
  unfold turns. cbn in A, B. repeat match goal with H : _ \/ _ |- _ => destruct H | H : (_, _) = (_, _) |- _ => injection H as; subst | H : False |- _ => destruct H end; subst; try discriminate; auto.
Qed.
Section S.
Context {T : Type} {N : Num T}.

Lemma triangle_turned (f : face T) gs : length (fVerts f) = 3%nat -> triangulates f gs -> exists g t, gs = [g] /\ triangle_of f g t /\ turns t.
Proof.
  intros L (A & _ & B). rewrite L in *. destruct (B ltac:(lia)) as (ts & F & _ & D). destruct gs as [|g [|? ?]]; try discriminate.
  inversion F as [|? t ? ? F1 F2]; subst. inversion F2; subst. exists g, t. split; [reflexivity|]. split; [exact F1|]. apply one_triangle. exact D.
Qed.

(** *** Skins *)

Variables (scale centi hundred : T) (o : object T) (bones : list (bone T)) (base : nat).

Definition lists_in (b : bone T) : list (Z * list (Z * T)) := filter (fun bw => fst bw =? oUID o) (bWeights b).
Definition own_nodes (k : nat) (bs : list (bone T)) : list nat := flat_map (fun p => map (fun _ => (base + fst p)%nat) (lists_in (snd p))) (combine (seq k (length bs)) bs).
Lemma owners_nodes joints : NoDup (map bID bones) ->
  Forall2 (fun b j => exists i, nth_error bones i = Some b /\ j = (base + i)%nat) (list_owners o bones) joints -> joints = own_nodes 0 bones.
Proof.
  intros Nd F. eapply forall2_functional; [|exact F|].
  - cbn. intros b j j' (i & A & ->) (i' & B & ->). f_equal. apply (proj1 (NoDup_nth_error (map bID bones)) Nd).
    + rewrite map_length. apply nth_error_Some. congruence.
    + rewrite !nth_error_map, A, B. reflexivity.
  - unfold list_owners, own_nodes.
    assert (G : forall bs k, (forall i b, nth_error bs i = Some b -> nth_error bones (k + i) = Some b) ->
      Forall2 (fun b j => exists i, nth_error bones i = Some b /\ j = (base + i)%nat) (flat_map (fun b => map (fun _ => b) (filter (fun bw => fst bw =? oUID o) (bWeights b))) bs)
        (flat_map (fun p => map (fun _ => (base + fst p)%nat) (lists_in (snd p))) (combine (seq k (length bs)) bs))).
    { induction bs as [|b bs IH]; intros k H; [constructor|]. cbn [length seq combine flat_map fst snd]. apply Forall2_app.
      - unfold lists_in. specialize (H O b eq_refl). rewrite Nat.add_0_r in H. induction (filter _ (bWeights b)) as [|x l IHl]; [constructor|]. cbn. constructor; [exists k; auto|exact IHl].
      - apply IH. intros i b' Hb. specialize (H (S i) b' Hb). rewrite Nat.add_succ_r in H. exact H. }
    apply (G bones O). intros i b H. exact H.
Qed.
(** The influences of a vertex, with nodes for joints. *)
Definition by_node (x : Z) (jl : nat * list (Z * T)) : list (option nat * T) :=
  map (fun e => (Some (fst jl), nmul (snd e) centi)) (filter (fun e => get_vertex_index_by_id o (fst e) =? x) (snd jl)).
Lemma influences_nodes x js : length js = length (lists_of o bones) ->
  map (fun e => (zidx js (fst e), snd e)) (influences centi o bones x) = flat_map (by_node x) (combine js (lists_of o bones)).
Proof.
  intros L. unfold influences. set (ls := lists_of o bones) in *. clearbody ls.
  assert (G : forall ls js k full, length js = length ls -> (forall i j, nth_error js i = Some j -> nth_error full (k + i) = Some j) ->
    map (fun e => (zidx full (fst e), snd e)) (flat_map (fun jl => map (fun e => (Z.of_nat (fst jl), nmul (snd e) centi)) (filter (fun e => get_vertex_index_by_id o (fst e) =? x) (snd jl)))
      (combine (seq k (length ls)) ls)) = flat_map (by_node x) (combine js ls)).
  { clear. induction ls as [|l ls IH]; intros [|j js] k full L H; try discriminate; [reflexivity|]. cbn [length seq combine flat_map fst snd]. rewrite map_app. f_equal.
    - unfold by_node. cbn [fst snd]. rewrite map_map. apply map_ext. intros e. cbn [fst snd]. f_equal. unfold zidx. destruct (Z.ltb_spec (Z.of_nat k) 0); [lia|]. rewrite Nat2Z.id.
      specialize (H O j eq_refl). rewrite Nat.add_0_r in H. exact H.
    - apply IH; [cbn in L; lia|]. intros i j' Hj. specialize (H (S i) j' Hj). rewrite Nat.add_succ_r in H. exact H. }
  apply (G ls js O js L). intros i j H. exact H.
Qed.
(** Values stored for a vertex, bone by bone. *)
Lemma by_node_stored (x : Z) : oVertexByUID o = [] -> 0 <= x < Z.of_nat (length (oVerts o)) -> forall bs k,
  flat_map (by_node x) (combine (own_nodes k bs) (lists_of o bs)) =
  flat_map (fun p => map (fun w => (Some (base + fst p)%nat, nmul w centi)) (stored (bWeights (snd p)) (oUID o) (x + 1))) (combine (seq k (length bs)) bs).
Proof.
  intros Hu Hx. assert (Hv : forall vid, (get_vertex_index_by_id o vid =? x) = (vid =? x + 1)).
  { intros vid. unfold get_vertex_index_by_id. rewrite Hu. cbn [assoc]. destruct (Z.leb_spec vid (Z.of_nat (length (oVerts o)))).
    - destruct (Z.eqb_spec (vid - 1) x), (Z.eqb_spec vid (x + 1)); try reflexivity; lia.
    - destruct (Z.eqb_spec (-1) x), (Z.eqb_spec vid (x + 1)); try reflexivity; lia. }
  induction bs as [|b bs IH]; intros k; [reflexivity|]. unfold own_nodes, lists_of in *. cbn [length seq combine flat_map fst snd].
  assert (C : forall (A B : Type) (a a' : list A) (c c' : list B), length a = length c -> combine (a ++ a') (c ++ c') = combine a c ++ combine a' c').
  { intros A B a. induction a as [|y a IHa]; intros a' [|z c] c' L; try discriminate; [reflexivity|]. cbn. f_equal. apply IHa. cbn in L. lia. }
  rewrite C by (unfold lists_in; rewrite !map_length; reflexivity). rewrite flat_map_app, (IH (S k)). f_equal.
  unfold lists_in, stored. induction (bWeights b) as [|[u l] ws IHw]; [reflexivity|]. cbn [filter flat_map fst snd]. destruct (u =? oUID o).
  - cbn [map combine flat_map fst snd]. rewrite IHw, filter_app, !map_app. f_equal. unfold by_node. cbn [fst snd]. rewrite map_map. 
    erewrite filter_ext; [reflexivity|]. intros e. apply Hv.
  - exact IHw.
Qed.
Lemma weights_once (v : pvert T) b : NoDup (pvBones v) -> (length (weights_for v b) <= 1)%nat.
Proof.
  intros Nd. unfold weights_for. rewrite map_length. revert Nd. generalize (pvWeights v). induction (pvBones v) as [|x l IH]; intros ws Nd; [cbn; lia|]. inversion Nd as [|? ? Hx Nd']; subst.
  destruct ws as [|w ws]; [cbn; lia|]. cbn [combine filter fst snd]. destruct (Z.eqb_spec x b) as [->|Ne]; [|apply IH; exact Nd'].
  assert (E : filter (fun e : Z * T => (fst e =? b) && nltb nzero (snd e)) (combine l ws) = []).
  { apply filter_nil. intros [y z] Hy. apply in_combine_l in Hy. cbn. destruct (Z.eqb_spec y b) as [->|]; [contradiction|reflexivity]. }
  cbn [andb]. destruct (nltb nzero w); cbn [length]; rewrite E; cbn; lia.
Qed.
End S.
