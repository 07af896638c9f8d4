(** Proofs about documents that are put together. *)
From Coq Require Import List ZArith Bool Lia.
From Verif.Model Require Import FbxBuild.
From Verif.Spec Require Import FbxBuildSpec.
Import ListNotations.
Local Open Scope Z_scope.

(** ** Lists *)
Lemma lookup_cons (a k : Z) (b : nat) r : lookup Z.eqb ((a, b) :: r) k = if a =? k then Some b else lookup Z.eqb r k.
Proof. reflexivity. Qed.
Lemma set_nth_same {A} (l : list A) i v d : (i < length l)%nat -> nth i (set_nth l i v) d = v.
Proof. revert i. induction l as [|x l IH]; intros [|i] H; cbn in *; try lia; [reflexivity|apply IH; lia]. Qed.
Lemma set_nth_other {A} (l : list A) i j v d : i <> j -> nth j (set_nth l i v) d = nth j l d.
Proof. revert i j. induction l as [|x l IH]; intros [|i] [|j] H; cbn; try reflexivity; try contradiction. apply IH. lia. Qed.
Lemma set_nth_length {A} (l : list A) i v : length (set_nth l i v) = length l.
Proof. revert i. induction l as [|x l IH]; intros [|i]; cbn; [reflexivity|reflexivity|reflexivity|f_equal; apply IH]. Qed.
Lemma lookup_none (t : list (Z * nat)) k : lookup Z.eqb t k = None <-> ~ In k (map fst t).
Proof.
  induction t as [|[a b] t IH]; cbn [lookup map fst In]; [split; [intros _ []|reflexivity]|]. destruct (Z.eqb_spec a k) as [->|N]; [split; [discriminate|intros H; destruct H; now left]|].
  rewrite IH. intuition.
Qed.

(** [new_id] finds a free id: among [fuel] consecutive ones not all are taken. *)
Lemma new_id_free t : forall fuel n, (length (filter (fun e => Z.leb n (fst e)) t) < fuel)%nat -> let '(i, m) := new_id fuel t n in lookup Z.eqb t i = None /\ n <= i /\ m = i + 1.
Proof.
  induction fuel as [|f IH]; intros n H; [lia|]. cbn [new_id]. destruct (lookup Z.eqb t n) as [q|] eqn:E; [|split; [exact E|split; [lia|reflexivity]]].
  assert (L : (length (filter (fun e => Z.leb (n + 1) (fst e)) t) < f)%nat).
  { assert (In n (map fst t)) as I by (apply Decidable.not_not; [unfold Decidable.decidable; destruct (in_dec Z.eq_dec n (map fst t)); auto|intros X; apply lookup_none in X; congruence]).
    clear IH E. assert (S (length (filter (fun e => (n + 1 <=? fst e)%Z) t)) <= length (filter (fun e => (n <=? fst e)%Z) t))%nat; [|lia]. clear H.
    induction t as [|[a b] t IHt]; [destruct I|]. cbn [filter fst map In] in *.
    assert (M : (length (filter (fun e : Z * nat => (n + 1 <=? fst e)%Z) t) <= length (filter (fun e : Z * nat => (n <=? fst e)%Z) t))%nat).
    { clear. induction t as [|[a b] t IH]; cbn [filter fst length]; [lia|]. destruct (Z.leb_spec (n + 1) a), (Z.leb_spec n a); cbn [length]; lia. }
    destruct I as [->|I].
    - destruct (Z.leb_spec (n + 1) n); [lia|]. destruct (Z.leb_spec n n); [|lia]. cbn [length]. lia.
    - specialize (IHt I). destruct (Z.leb_spec (n + 1) a), (Z.leb_spec n a); cbn [length]; lia. }
  specialize (IH (n + 1) L). destruct (new_id f t (n + 1)) as [i m]. intuition lia.
Qed.
Lemma new_id_ok t n : let '(i, m) := new_id (S (length t)) t n in lookup Z.eqb t i = None /\ n <= i /\ m = i + 1.
Proof.
  apply new_id_free. assert (L : forall l : list (Z * nat), (length (filter (fun e => (n <=? fst e)%Z) l) <= length l)%nat) by (induction l as [|x l IH]; cbn [filter]; [lia|destruct (_ <=? _); cbn [length]; lia]).
  specialize (L t). lia.
Qed.

(** ** The invariant *)
Record good (n : nat) (l : list nat) (d : bdoc) : Prop := mkGood {
  g_ids : length (bdIds d) = n;
  g_kinds : length (bdKinds d) = n;
  g_pos : (0 < n)%nat;
  g_in : forall p, In p l -> (0 < p < n)%nat;
  g_rows : forall p, In p (bdRows d) <-> In p l;
  g_zero : id_of (bdIds d) 0 = 0;
  g_next : 0 <= bdNext d;
  g_table : bdTable d = rev (map (fun p => (id_of (bdIds d) p, p)) (bdRows d)) ++ [(0, 0%nat)];
  g_found : forall p, In p (0%nat :: l) -> lookup Z.eqb (bdTable d) (id_of (bdIds d) p) = Some p;
  g_conns : bdConns d = map (fun r => (id_of (bdIds d) (snd r), id_of (bdIds d) (fst r))) (bdRefs d);
  g_refs : forall r, In r (bdRefs d) -> In (fst r) (0%nat :: l) /\ In (snd r) (0%nat :: l) }.

Lemma good_new : good 1 [] new_doc.
Proof.
  constructor; cbn; try reflexivity; try lia; try tauto.
  - intros p [<-|[]]. reflexivity.
Qed.
Lemma good_take n l d k id : good n l d -> good (S n) l (take d k id).
Proof.
  intros [G1 G2 G3 G4 G5 G6 G7 G8 G9 G10 G11]. assert (E : forall p, (p < n)%nat -> id_of (bdIds d ++ [id]) p = id_of (bdIds d) p) by (intros p L; unfold id_of; apply app_nth1; lia).
  assert (E' : forall p, In p (0%nat :: l) -> id_of (bdIds d ++ [id]) p = id_of (bdIds d) p) by (intros p [<-|H]; apply E; [lia|apply G4; exact H]).
  unfold take. constructor; cbn [bdIds bdKinds bdRows bdNext bdTable bdConns bdRefs]; try assumption; try lia.
  - rewrite app_length. cbn. lia.
  - rewrite app_length. cbn. lia.
  - intros p H. specialize (G4 p H). lia.
  - rewrite E' by (left; reflexivity). exact G6.
  - rewrite G8. f_equal. f_equal. apply map_ext_in. intros p H. rewrite E'; [reflexivity|right; apply G5; exact H].
  - intros p H. rewrite E' by exact H. exact (G9 p H).
  - rewrite G10. apply map_ext_in. intros r H. destruct (G11 r H) as [A B]. rewrite !E'; trivial.
Qed.
Lemma good_make n l d k : good n l d -> good (S n) l (make d k).
Proof. apply good_take. Qed.
Lemma good_add n l d p : (0 < p < n)%nat -> good n l d -> good n (p :: l) (add d p) /\ (In p l -> add d p = d).
Proof.
  intros P [G1 G2 G3 G4 G5 G6 G7 G8 G9 G10 G11]. unfold add. destruct (in_dec Nat.eq_dec p l) as [I|I].
  - rewrite (G9 p (or_intror I)), Nat.eqb_refl. split; [|intros _; reflexivity]. constructor; try assumption.
    + intros q [<-|H]; [exact P|exact (G4 q H)].
    + intros q. rewrite G5. cbn [In]. intuition congruence.
    + intros q [<-|[<-|H]]; [apply G9; left; reflexivity|apply G9; right; exact I|apply G9; right; exact H].
    + intros r H. destruct (G11 r H) as [A B]. cbn [In] in *. intuition.
  - split; [|intros X; contradiction].
    assert (NP : forall q, In q (0%nat :: l) -> q <> p) by (intros q [<-|H]; [lia|congruence]).
    assert (Rg : forall (t : list (Z * nat)) k q, lookup Z.eqb t k = Some q -> In q (map snd t)).
    { intros t k q. induction t as [|[a b] t IH]; cbn [lookup map snd In]; [discriminate|]. destruct (a =? k); [intros [= ->]; now left|intros H; right; exact (IH H)]. }
    assert (NQ : match lookup Z.eqb (bdTable d) (id_of (bdIds d) p) with Some q => Nat.eqb q p | None => false end = false).
    { destruct (lookup Z.eqb (bdTable d) (id_of (bdIds d) p)) as [q|] eqn:L; [|reflexivity]. apply Nat.eqb_neq. apply NP. apply Rg in L. rewrite G8, map_app, map_rev, map_map in L. apply in_app_or in L as [L|[<-|[]]]; [|now left].
      right. apply G5. apply in_rev in L. cbn [snd] in L. rewrite map_id in L. exact L. }
    rewrite NQ.
    (* an id that is not in the table *)
    assert (F : exists i m, (if (id_of (bdIds d) p =? 0) || match lookup Z.eqb (bdTable d) (id_of (bdIds d) p) with Some _ => true | None => false end
        then let '(n0, next) := new_id (S (length (bdTable d))) (bdTable d) (bdNext d) in (set_nth (bdIds d) p n0, next) else (bdIds d, bdNext d)) = (set_nth (bdIds d) p i, m) /\ lookup Z.eqb (bdTable d) i = None /\ 0 <= m).
    { pose proof (new_id_ok (bdTable d) (bdNext d)) as F. destruct (new_id (S (length (bdTable d))) (bdTable d) (bdNext d)) as [i m]. destruct F as (Fr & Ge & ->).
      destruct (_ || _) eqn:B; [exists i, (i + 1); repeat split; [exact Fr|lia]|]. apply orb_false_iff in B as [_ B]. exists (id_of (bdIds d) p), (bdNext d). split; [|split; [destruct (lookup _ _ _); [discriminate|reflexivity]|exact G7]].
      f_equal. clear. unfold id_of. revert p. induction (bdIds d) as [|x r IH]; intros [|p]; cbn; try reflexivity. f_equal. apply IH. }
    destruct F as (i & m & -> & Fr & Hm).
    assert (E : forall q, q <> p -> id_of (set_nth (bdIds d) p i) q = id_of (bdIds d) q) by (intros q N; apply set_nth_other; congruence).
    assert (Ep : id_of (set_nth (bdIds d) p i) p = i) by (apply set_nth_same; lia).
    constructor; cbn [bdIds bdKinds bdRows bdNext bdTable bdConns bdRefs]; try assumption; try lia.
    + rewrite set_nth_length. exact G1.
    + intros q [<-|H]; [exact P|exact (G4 q H)].
    + intros q. rewrite in_app_iff, G5. cbn [In]. tauto.
    + rewrite E by lia. exact G6.
    + rewrite Ep, map_app, rev_app_distr. cbn [map rev app]. rewrite Ep. f_equal. rewrite G8. f_equal. f_equal. apply map_ext_in. intros q H. apply G5 in H. rewrite E by (apply NP; right; exact H). reflexivity.
    + intros q H. rewrite lookup_cons, Ep. destruct (Nat.eq_dec q p) as [->|N]; [rewrite Ep, Z.eqb_refl; reflexivity|]. rewrite E by exact N.
      assert (In q (0%nat :: l)) as Q by (cbn [In] in *; intuition congruence). pose proof (G9 q Q) as L. destruct (Z.eqb_spec i (id_of (bdIds d) q)) as [->|_]; [congruence|exact L].
    + rewrite G10. apply map_ext_in. intros r H. destruct (G11 r H) as [A B]. rewrite (E _ (NP _ A)), (E _ (NP _ B)). reflexivity.
    + intros r H. destruct (G11 r H) as [A B]. cbn [In] in *. intuition.
Qed.
Lemma good_connect n l d a b : In a (0%nat :: l) -> In b (0%nat :: l) -> good n l d -> good n l (connect d a b).
Proof.
  intros A B [G1 G2 G3 G4 G5 G6 G7 G8 G9 G10 G11]. unfold connect. constructor; cbn [bdIds bdKinds bdRows bdNext bdTable bdConns bdRefs]; try assumption.
  - rewrite map_app, G10. reflexivity.
  - intros r H. apply in_app_or in H as [H|[<-|[]]]; [exact (G11 r H)|split; assumption].
Qed.
Lemma good_run n l s : orderly n l s -> forall d, good n l d -> exists n' l', good n' l' (run s d).
Proof.
  induction 1 as [n l|n l k r O IH|n l k id r O IH|n l p r P O IH|n l a b r A B O IH]; intros d G.
  - exists n, l. exact G.
  - apply (IH (make d k)). apply good_make. exact G.
  - apply (IH (take d k id)). apply good_take. exact G.
  - apply (IH (add d p)). apply good_add; assumption.
  - apply (IH (connect d a b)). apply good_connect; assumption.
Qed.

(** ** Reloading *)
Lemma fold_table ids : forall rows t, fold_left (fun t p => (id_of ids p, p) :: t) rows t = rev (map (fun p => (id_of ids p, p)) rows) ++ t.
Proof. induction rows as [|p r IH]; intros t; cbn [fold_left map rev app]; [reflexivity|]. rewrite IH, <- app_assoc. reflexivity. Qed.
Definition is_kmodel (ks : list okind) (p : nat) : bool := match kind_of ks p with KModel => true | _ => false end.
(** The parents that the references say: the last one counts. *)
Definition tree (ks : list okind) (refs : list (nat * nat)) : list (nat * nat) := rev (map (fun r => (snd r, fst r)) (filter (fun r => is_kmodel ks (fst r) && is_kmodel ks (snd r)) refs)).
Lemma fold_conns ks t ids : forall refs st, (forall r, In r refs -> lookup Z.eqb t (id_of ids (fst r)) = Some (fst r) /\ lookup Z.eqb t (id_of ids (snd r)) = Some (snd r)) ->
  fold_left (connect_row ks t) (map (fun r => (id_of ids (snd r), id_of ids (fst r))) refs) st = (fst st ++ refs, tree ks refs ++ snd st).
Proof.
  induction refs as [|r refs IH]; intros st H; cbn [map fold_left]; [rewrite app_nil_r; destruct st; reflexivity|]. unfold connect_row at 2. cbn [fst snd].
  destruct (H r (or_introl eq_refl)) as [-> ->]. rewrite IH by (intros x X; apply H; right; exact X). cbn [fst snd]. rewrite <- app_assoc. cbn [app]. replace ((fst r, snd r) :: refs) with (r :: refs) by (destruct r; reflexivity).
  f_equal. unfold tree. cbn [filter]. unfold is_kmodel at 3 4. destruct (kind_of ks (fst r)), (kind_of ks (snd r)); cbn [andb map rev]; try reflexivity. rewrite <- app_assoc. reflexivity.
Qed.
Lemma reload_good n l d : good n l d ->
  reload d = mkBD (bdKinds d) (bdIds d) (bdTable d) 0 (bdRefs d) (tree (bdKinds d) (bdRefs d)) (filter (fun p => match kind_of (bdKinds d) p with KMaterial => true | _ => false end) (bdRows d)) (bdRows d) (bdConns d).
Proof.
  intros [G1 G2 G3 G4 G5 G6 G7 G8 G9 G10 G11]. unfold reload. rewrite fold_table, <- G8, G10. rewrite fold_conns.
  - cbn [fst snd app]. rewrite app_nil_r. reflexivity.
  - intros r H. destruct (G11 r H) as [A B]. split; apply G9; assumption.
Qed.

Theorem reload_same s : orderly 1 [] s -> let d := run s new_doc in same_objects d (reload d) /\ same_refs d (reload d).
Proof.
  intros O. cbv zeta. destruct (good_run 1 [] s O new_doc good_new) as (n & l & G). rewrite (reload_good n l _ G). split; intros x; reflexivity.
Qed.
(** In memory there are no materials and no parents. *)
Theorem never_listed s d : bdMats (run s d) = bdMats d /\ bdParents (run s d) = bdParents d.
Proof.
  revert d. induction s as [|a s IH]; intros d; cbn [run fold_left]; [split; reflexivity|]. destruct (IH (step1 d a)) as [A B]. unfold run in *. rewrite A, B.
  destruct a as [k|k id|p|x y]; cbn [step1]; try (split; reflexivity). unfold add. destruct (match lookup Z.eqb (bdTable d) _ with Some q => _ | None => _ end); [split; reflexivity|].
  match goal with |- context [let '(_, _) := ?x in _] => destruct x end. split; reflexivity.
Qed.
(** What a reloaded document says: the added materials, and as parent of a model the last model it was connected to. *)
Theorem reload_materials s : orderly 1 [] s -> let d := run s new_doc in forall p, In p (bdMats (reload d)) <-> In p (bdRows d) /\ kind_of (bdKinds d) p = KMaterial.
Proof.
  intros O. cbv zeta. destruct (good_run 1 [] s O new_doc good_new) as (n & l & G). rewrite (reload_good n l _ G). cbn [bdMats]. intros p. rewrite filter_In. destruct (kind_of _ p); intuition discriminate.
Qed.
Lemma tree_snoc ks refs r : tree ks (refs ++ [r]) = (if is_kmodel ks (fst r) && is_kmodel ks (snd r) then [(snd r, fst r)] else []) ++ tree ks refs.
Proof. unfold tree. rewrite filter_app, map_app, rev_app_distr. cbn [filter]. destruct (_ && _); reflexivity. Qed.
Lemma tree_parent ks refs c p : lookup Nat.eqb (tree ks refs) c = Some p <->
  exists a b, refs = a ++ (p, c) :: b /\ is_kmodel ks p = true /\ is_kmodel ks c = true /\ forall q, In (q, c) b -> is_kmodel ks q = false.
Proof.
  induction refs as [|[x y] refs IH] using rev_ind; [cbn; split; [discriminate|intros (a & b & E & _); destruct a; discriminate]|].
  rewrite tree_snoc. cbn [fst snd].
  assert (D : (exists a b, refs ++ [(x, y)] = a ++ (p, c) :: b /\ is_kmodel ks p = true /\ is_kmodel ks c = true /\ forall q, In (q, c) b -> is_kmodel ks q = false) <->
    ((x, y) = (p, c) /\ is_kmodel ks p = true /\ is_kmodel ks c = true) \/ ((y = c -> is_kmodel ks x = false) /\ exists a b, refs = a ++ (p, c) :: b /\ is_kmodel ks p = true /\ is_kmodel ks c = true /\ forall q, In (q, c) b -> is_kmodel ks q = false)).
  { split.
    - intros (a & b & E & P & C & F). destruct b as [|z b _] using rev_ind.
      + apply app_inj_tail in E as [_ E]. left. auto.
      + rewrite app_comm_cons, app_assoc in E. apply app_inj_tail in E as [-> <-]. right. split; [intros ->; apply F; apply in_or_app; right; left; reflexivity|].
        exists a, b. repeat split; try assumption. intros q H. apply F. apply in_or_app. left. exact H.
    - intros [(E & P & C)|(N & a & b & -> & P & C & F)].
      + exists refs, []. rewrite E. repeat split; try assumption. intros q [].
      + exists a, (b ++ [(x, y)]). rewrite <- app_assoc. repeat split; try assumption. intros q H. apply in_app_or in H as [H|[E|[]]]; [exact (F q H)|]. injection E as <- <-. apply N. reflexivity. }
  rewrite D. clear D. destruct (is_kmodel ks x) eqn:X, (is_kmodel ks y) eqn:Y; cbn [andb app lookup].
  - destruct (Nat.eqb_spec y c) as [->|N].
    + split; [intros E; injection E as ->; left; auto|]. intros [(E & _)|(N & _)]; [congruence|specialize (N eq_refl); discriminate].
    + rewrite IH. split; [intros H; right; split; [congruence|exact H]|]. intros [(E & _)|(_ & H)]; [congruence|exact H].
  - rewrite IH. split; [intros H; right; split; [intros ->|exact H]; destruct H as (? & ? & _ & _ & C & _); congruence|]. intros [(E & _ & C)|(_ & H)]; [injection E as -> ->; congruence|exact H].
  - rewrite IH. split; [intros H; right; split; [intros _; reflexivity|exact H]|]. intros [(E & P & _)|(_ & H)]; [injection E as -> ->; congruence|exact H].
  - rewrite IH. split; [intros H; right; split; [intros _; reflexivity|exact H]|]. intros [(E & P & _)|(_ & H)]; [injection E as -> ->; congruence|exact H].
Qed.
Lemma is_kmodel_spec ks p : is_kmodel ks p = true <-> kind_of ks p = KModel.
Proof. unfold is_kmodel. destruct (kind_of ks p); intuition discriminate. Qed.
Theorem reload_parent s : orderly 1 [] s -> let d := run s new_doc in forall c p, parent_of (reload d) c = Some p <->
  exists a b, bdRefs d = a ++ (p, c) :: b /\ kind_of (bdKinds d) p = KModel /\ kind_of (bdKinds d) c = KModel /\ forall q, In (q, c) b -> kind_of (bdKinds d) q <> KModel.
Proof.
  intros O. cbv zeta. destruct (good_run 1 [] s O new_doc good_new) as (n & l & G). rewrite (reload_good n l _ G). intros c p. unfold parent_of. cbn [bdParents]. rewrite tree_parent.
  split; intros (a & b & E & P & C & F); exists a, b; (split; [exact E|]); (split; [apply is_kmodel_spec; exact P|]); (split; [apply is_kmodel_spec; exact C|]); intros q H.
  - intros X. apply is_kmodel_spec in X. rewrite (F q H) in X. discriminate.
  - apply not_true_is_false. intros X. apply is_kmodel_spec in X. exact (F q H X).
Qed.
Theorem own_ids s : orderly 1 [] s -> let d := run s new_doc in forall p, In p (0%nat :: bdRows d) -> lookup Z.eqb (bdTable d) (id_of (bdIds d) p) = Some p.
Proof.
  intros O. cbv zeta. destruct (good_run 1 [] s O new_doc good_new) as (n & l & G). intros p H. apply (g_found _ _ _ G). destruct H as [<-|H]; [left; reflexivity|right; apply (g_rows _ _ _ G); exact H].
Qed.
