(** Proofs about FBX documents. *)
From Coq Require Import List ZArith Bool Lia.
From Verif Require Import Model.Codec Model.Fbx Model.FbxDoc Spec.FbxDocSpec.
Import ListNotations.
Local Open Scope Z_scope.

Lemma beq_eq a : forall b, beq a b = true <-> a = b.
Proof.
  induction a as [|x a IH]; intros [|y b]; cbn [beq]; try (split; discriminate); [tauto|].
  rewrite andb_true_iff, IH, Z.eqb_eq. split; [intros [-> ->]; reflexivity|injection 1; auto].
Qed.
Lemma beq_refl a : beq a a = true. Proof. apply beq_eq. reflexivity. Qed.
Lemma beq_neq a b : a <> b -> beq a b = false.
Proof. intros H. destruct (beq a b) eqn:E; [apply beq_eq in E; contradiction|reflexivity]. Qed.

(** ** Ids *)

Lemma new_id_free f : forall t n v, new_id f t n = Some v -> lookup v t = None.
Proof.
  induction f as [|f IH]; intros t n v E; [discriminate|]. cbn [new_id] in E.
  destruct (lookup n t) eqn:L; [eauto|]. injection E as <-. exact L.
Qed.

Lemma lookup_in k t o : lookup k t = Some o -> In (k, o) t.
Proof.
  induction t as [|[k' o'] t IH]; [discriminate|]. cbn [lookup]. destruct (Z.eqb_spec k k').
  - injection 1 as <-. left. congruence.
  - intros H. right. auto.
Qed.

Lemma filter_le (t : list (Z * nat)) n :
  (length (filter (fun e => (n + 1 <=? fst e)%Z) t) <= length (filter (fun e => (n <=? fst e)%Z) t))%nat.
Proof.
  induction t as [|[k o] t IH]; [cbn; lia|]. cbn [filter fst].
  destruct (Z.leb_spec (n + 1) k), (Z.leb_spec n k); cbn [length]; lia.
Qed.
Lemma filter_lt (t : list (Z * nat)) n o : In (n, o) t ->
  (length (filter (fun e => (n + 1 <=? fst e)%Z) t) < length (filter (fun e => (n <=? fst e)%Z) t))%nat.
Proof.
  induction t as [|[k p] t IH]; [contradiction|]. intros [E|H].
  - injection E as -> ->. cbn [filter fst]. pose proof (filter_le t n).
    destruct (Z.leb_spec (n + 1) n), (Z.leb_spec n n); cbn [length]; lia.
  - specialize (IH H). cbn [filter fst].
    destruct (Z.leb_spec (n + 1) k), (Z.leb_spec n k); cbn [length]; lia.
Qed.

Lemma new_id_some f : forall t n, (length (filter (fun e => (n <=? fst e)%Z) t) < f)%nat -> exists v, new_id f t n = Some v.
Proof.
  induction f as [|f IH]; intros t n H; [lia|]. cbn [new_id].
  destruct (lookup n t) as [o|] eqn:L; [|eauto]. apply IH.
  pose proof (filter_lt t n o (lookup_in _ _ _ L)). lia.
Qed.
Lemma new_id_total t n : exists v, new_id (S (length t)) t n = Some v.
Proof.
  apply new_id_some. induction t as [|e t IH]; cbn [filter length]; [lia|].
  destruct (n <=? fst e); cbn [length]; lia.
Qed.

(** What adding one object does. *)
Lemma add_object_step d o : filed d -> d_objs d <> None -> (d_attrs d (d_node d o) <> [] \/ found d o) ->
  exists d', add_object d o = Some d' /\ filed d' /\ d_objs d' <> None /\ found d' o /\
    (obj_id d' o = 0 -> lookup 0 (d_table d) = Some o) /\
    (forall k e, lookup k (d_table d) = Some e -> lookup k (d_table d') = Some e) /\
    d_node d' = d_node d /\
    (forall n, d_attrs d n <> [] -> d_attrs d' n <> []).
Proof.
  intros F Ho Ha. unfold add_object.
  destruct (lookup (obj_id d o) (d_table d)) as [e|] eqn:L; [destruct (Nat.eqb_spec e o) as [->|Ne]|].
  - exists d. split; [reflexivity|]. split; [exact F|]. split; [exact Ho|]. split; [exact L|].
    split; [intros E; rewrite E in L; exact L|]. auto.
  - (* another object has this id *)
    destruct Ha as [Ha|Ha]; [|unfold found in Ha; congruence].
    rewrite orb_true_r. destruct (new_id_total (d_table d) (d_next d)) as (v & Ev). rewrite Ev.
    pose proof (new_id_free _ _ _ _ Ev) as Fv.
    destruct (d_attrs d (d_node d o)) as [|a r] eqn:Ea; [congruence|].
    cbn [d_objs]. destruct (d_objs d) as [l|] eqn:El; [|congruence].
    eexists. split; [reflexivity|].
    assert (Io : forall x, obj_id (mkDoc (d_table d) (v + 1) (d_node d) (upd (d_attrs d) (d_node d o) (AI64 v :: r)) (Some l)) x
                 = if Nat.eqb x o then v else obj_id d x).
    { intros x. unfold obj_id, upd. cbn [d_attrs d_node]. destruct (Nat.eqb_spec x o) as [->|Nx].
      - rewrite Nat.eqb_refl. reflexivity.
      - destruct (Nat.eqb_spec (d_node d x) (d_node d o)) as [E|_]; [|reflexivity].
        apply (filed_nodes _ F) in E. contradiction. }
    rewrite Io, Nat.eqb_refl.
    set (d' := mkDoc ((v, o) :: d_table d) (v + 1) (d_node d) (upd (d_attrs d) (d_node d o) (AI64 v :: r))
                 (Some (l ++ [d_node d o]))).
    assert (Id' : forall x, obj_id d' x = if Nat.eqb x o then v else obj_id d x) by exact Io.
    assert (Keep : forall k e', lookup k (d_table d) = Some e' -> lookup k (d_table d') = Some e').
    { intros k e' H. cbn [d' d_table lookup]. destruct (Z.eqb_spec k v); [congruence|exact H]. }
    assert (NotIn : forall k, lookup k (d_table d) <> Some o).
    { intros k H. pose proof (filed_ids _ F _ _ H) as E. rewrite E in L. congruence. }
    split; [constructor|].
    + intros k x H. rewrite Id'. cbn [d' d_table lookup] in H. destruct (Z.eqb_spec k v) as [->|Nk].
      * injection H as <-. rewrite Nat.eqb_refl. reflexivity.
      * destruct (Nat.eqb_spec x o) as [->|_]; [exfalso; eapply NotIn; eauto|]. apply (filed_ids _ F). exact H.
    + destruct (filed_root _ F) as (s & Hs). exists s. auto.
    + exact (filed_nodes _ F).
    + split; [discriminate|]. split; [unfold found; rewrite Id', Nat.eqb_refl; cbn [d' d_table lookup]; rewrite Z.eqb_refl; reflexivity|].
      split.
      { rewrite Id', Nat.eqb_refl. intros ->. destruct (filed_root _ F) as (s & Hs). congruence. }
      split; [exact Keep|]. split; [reflexivity|].
      intros n Hn. cbn [d' d_attrs]. unfold upd. destruct (Nat.eqb n (d_node d o)); [discriminate|exact Hn].
  - (* a new id of its own *)
    rewrite orb_false_r.
    destruct (Z.eqb_spec (obj_id d o) 0) as [E0|N0].
    { rewrite E0 in L. destruct (filed_root _ F) as (s & Hs). congruence. }
    destruct (d_objs d) as [l|] eqn:El; [|congruence].
    eexists. split; [reflexivity|]. cbn [d_table d_node d_attrs d_objs].
    set (d' := mkDoc ((obj_id d o, o) :: d_table d) (d_next d) (d_node d) (d_attrs d) (Some (l ++ [d_node d o]))).
    assert (Keep : forall k e', lookup k (d_table d) = Some e' -> lookup k (d_table d') = Some e').
    { intros k e' H. cbn [d' d_table lookup]. destruct (Z.eqb_spec k (obj_id d o)); [congruence|exact H]. }
    split; [constructor|].
    + intros k x H. cbn [d' d_table lookup] in H. change (obj_id d' x) with (obj_id d x).
      destruct (Z.eqb_spec k (obj_id d o)) as [->|Nk]; [injection H as <-; reflexivity|]. apply (filed_ids _ F). exact H.
    + destruct (filed_root _ F) as (s & Hs). exists s. auto.
    + exact (filed_nodes _ F).
    + split; [discriminate|].
      split; [unfold found; change (obj_id d' o) with (obj_id d o); cbn [d' d_table lookup]; rewrite Z.eqb_refl; reflexivity|].
      split; [change (obj_id d' o) with (obj_id d o); contradiction|]. auto.
Qed.

Lemma found_keep d d' o : filed d' -> found d o ->
  (forall k e, lookup k (d_table d) = Some e -> lookup k (d_table d') = Some e) -> found d' o /\ obj_id d' o = obj_id d o.
Proof.
  intros F' H K. unfold found in *. apply K in H. pose proof (filed_ids _ F' _ _ H) as E. rewrite E. auto.
Qed.

Lemma add_objects_spec l : forall d, filed d -> d_objs d <> None ->
  (forall o, In o l -> d_attrs d (d_node d o) <> [] \/ found d o) ->
  exists d', add_objects d l = Some d' /\ filed d' /\
    (forall o, In o l -> found d' o /\ (obj_id d' o = 0 -> lookup 0 (d_table d) = Some o)) /\
    (forall k e, lookup k (d_table d) = Some e -> lookup k (d_table d') = Some e /\ obj_id d' e = k).
Proof.
  induction l as [|o l IH]; intros d F Ho Ha.
  - exists d. split; [reflexivity|]. split; [exact F|]. split; [contradiction|].
    intros k e H. split; [exact H|]. apply (filed_ids _ F). exact H.
  - destruct (add_object_step d o F Ho (Ha o (or_introl eq_refl))) as (d1 & E1 & F1 & Ho1 & Fo & Z1 & K1 & N1 & A1).
    destruct (IH d1 F1 Ho1) as (d2 & E2 & F2 & P2 & K2).
    { intros x Hx. destruct (Ha x (or_intror Hx)) as [H|H].
      - left. rewrite N1. auto.
      - right. eapply found_keep; eauto. }
    exists d2. cbn [add_objects]. rewrite E1. split; [exact E2|]. split; [exact F2|]. split.
    + intros x Hx.
      assert (Kx : forall k e, lookup k (d_table d1) = Some e -> lookup k (d_table d2) = Some e) by (intros; apply K2; auto).
      destruct (Nat.eq_dec x o) as [->|Nx].
      * destruct (found_keep d1 d2 o F2 Fo Kx) as (G & E). split; [exact G|]. rewrite E. exact Z1.
      * destruct Hx as [Hx|Hx]; [congruence|]. destruct (P2 x Hx) as (G & Z2). split; [exact G|].
        intros E. specialize (Z2 E).
        destruct (lookup 0 (d_table d)) as [s|] eqn:L0.
        -- apply K1 in L0. congruence.
        -- destruct (filed_root _ F) as (s & Hs). congruence.
    + intros k e H. apply K2. auto.
Qed.

Lemma add_again d o : found d o -> add_object d o = Some d.
Proof. unfold found, add_object. intros ->. rewrite Nat.eqb_refl. reflexivity. Qed.

Lemma add_found d o d' : filed d -> add_object d o = Some d' -> d_objs d <> None -> filed d' /\ found d' o.
Proof.
  intros F E Ho.
  assert (Ha : d_attrs d (d_node d o) <> [] \/ found d o).
  { unfold add_object in E. unfold found. destruct (lookup (obj_id d o) (d_table d)) as [e|] eqn:L.
    - destruct (Nat.eqb_spec e o) as [->|Ne]; [right; reflexivity|]. left. rewrite orb_true_r in E.
      destruct (new_id _ _ _); [|discriminate]. destruct (d_attrs d (d_node d o)); discriminate.
    - destruct (Z.eqb_spec (obj_id d o) 0) as [E0|N0].
      + destruct (filed_root _ F) as (s & Hs). congruence.
      + left. intros A. unfold obj_id in N0. rewrite A in N0. contradiction. }
  destruct (add_object_step d o F Ho Ha) as (d1 & E1 & F1 & _ & Fo & _). rewrite E1 in E. injection E as <-. auto.
Qed.

Lemma table_of_spec l : forall i t (attrs : nat -> list attr),
  (forall j n, nth_error l j = Some n -> attrs (i + j)%nat = node_attrs n) ->
  (forall k o, lookup k t = Some o -> to_int64 0 (attr_at_ (attrs o) 0) = k) ->
  (exists s, lookup 0 t = Some s) ->
  (forall k o, lookup k (table_of i l t) = Some o -> to_int64 0 (attr_at_ (attrs o) 0) = k) /\
  (exists s, lookup 0 (table_of i l t) = Some s).
Proof.
  induction l as [|n l IH]; intros i t attrs Hl Ht H0; [auto|]. cbn [table_of]. apply IH.
  - intros j m Hj. specialize (Hl (S j) m Hj). rewrite <- Hl. f_equal. lia.
  - intros k o H. cbn [lookup] in H. destruct (Z.eqb_spec k (to_int64 0 (attr_at_ (node_attrs n) 0))) as [->|Nk].
    + injection H as <-. specialize (Hl 0%nat n eq_refl). rewrite Nat.add_0_r in Hl. rewrite Hl. reflexivity.
    + auto.
  - cbn [lookup]. destruct (0 =? _); eauto.
Qed.

Lemma build_filed root : filed (build_doc root).
Proof.
  unfold build_doc. set (kids := match find_child objects_name (node_kids root) with Some n => Some (node_kids n) | None => None end).
  set (l := match kids with Some k => k | None => [] end).
  set (attrs := fun n => match n with O => [] | S i => match nth_error l i with Some x => node_attrs x | None => [] end end).
  destruct (table_of_spec l 1 [(0, 0%nat)] attrs) as (A & B).
  - intros j n H. cbn. rewrite H. reflexivity.
  - intros k o H. cbn [lookup] in H. destruct (Z.eqb_spec k 0); [injection H as <-; subst; reflexivity|discriminate].
  - exists 0%nat. reflexivity.
  - constructor; [exact A|exact B|]. intros o o' E. exact E.
Qed.

Lemma number_spec l : forall i t next (attrs : nat -> list attr) a t' x, number i l t next = (a, t', x) ->
  (forall j c, nth_error a j = Some c -> attrs (i + j)%nat = c) ->
  (forall k o, lookup k t = Some o -> to_int64 0 (attr_at_ (attrs o) 0) = k) ->
  (exists s, lookup 0 t = Some s) ->
  length a = length l /\
  (forall k o, lookup k t' = Some o -> to_int64 0 (attr_at_ (attrs o) 0) = k) /\
  (exists s, lookup 0 t' = Some s).
Proof.
  induction l as [|n l IH]; intros i t next attrs a t' x E Hl Ht H0; cbn [number] in E.
  - injection E as <- <- <-. auto.
  - destruct (new_id_total t next) as (v & Ev). rewrite Ev in E.
    destruct (number (S i) l ((v, i) :: t) (v + 1)) as [[a1 t1] x1] eqn:E1. injection E as <- <- <-.
    destruct (IH _ _ _ attrs _ _ _ E1) as (A & B & C).
    + intros j c Hj. specialize (Hl (S j) c Hj). rewrite <- Hl. f_equal. lia.
    + intros k o H. cbn [lookup] in H. destruct (Z.eqb_spec k v) as [->|Nk].
      * injection H as <-. specialize (Hl 0%nat _ eq_refl). rewrite Nat.add_0_r in Hl. rewrite Hl. reflexivity.
      * auto.
    + cbn [lookup]. destruct (0 =? v); eauto.
    + split; [cbn; lia|]. auto.
Qed.

Lemma build_6100_filed root : filed (build_doc_6100 root).
Proof.
  unfold build_doc_6100. set (l := match _ with Some k => k | None => [] end).
  destruct (number 1 l [(0, 0%nat)] 0) as [[copies t] x] eqn:E.
  destruct (number_spec l 1 _ _ (fun n => nth n ([] :: copies ++ map node_attrs l) []) _ _ _ E) as (A & B & C).
  - intros j c Hj. cbn [nth Nat.add]. rewrite app_nth1 by (apply nth_error_Some; congruence).
    apply nth_error_nth. exact Hj.
  - intros k o H. cbn [lookup] in H. destruct (Z.eqb_spec k 0); [injection H as <-; subst; reflexivity|discriminate].
  - exists 0%nat. reflexivity.
  - constructor; [exact B|exact C|]. intros o o' H. exact H.
Qed.

(** ** Properties *)

Lemma plook_app_none k l : forall m, ~ In k (map fst l) -> plook k (l ++ m) = plook k m.
Proof.
  induction l as [|[k' p] l IH]; intros m H; [reflexivity|]. cbn [app plook]. rewrite beq_neq.
  - apply IH. intros X. apply H. right. exact X.
  - intros ->. apply H. left. reflexivity.
Qed.

Definition entry (a : list attr) : bytes * property :=
  (to_str (attr_at_ a 0), mkP (to_str (attr_at_ a 1)) (to_str (attr_at_ a 2)) (to_str (attr_at_ a 3)) (skipn 4 a)).

Lemma build_cache_eq l : Forall (fun a => (4 <= length a)%nat) l -> forall m, build_cache m l = Some (rev (map entry l) ++ m).
Proof.
  induction 1 as [|a l Ha _ IH]; intros m; [reflexivity|]. cbn [build_cache]. unfold prop_of.
  destruct (Nat.ltb_spec (length a) 4); [lia|]. rewrite IH. cbn [map rev]. rewrite <- app_assoc. reflexivity.
Qed.

(** With distinct names the newest entry is the only one. *)
Lemma plook_rev k l : NoDup (map (fun a => to_str (attr_at_ a 0)) l) ->
  plook k (rev (map entry l)) = plook k (map entry l).
Proof.
  induction l as [|a l IH]; intros H; [reflexivity|]. cbn [map] in H. inversion H as [|x y Hn Hd]; subst.
  cbn [map rev plook].
  assert (Hno : forall k', k' = to_str (attr_at_ a 0) -> ~ In k' (map fst (rev (map entry l)))).
  { intros k' -> X. apply Hn. rewrite map_rev in X. apply in_rev in X. rewrite map_map in X. exact X. }
  destruct (entry a) as [ka pa] eqn:Ee.
  assert (Ek : to_str (attr_at_ a 0) = ka) by (unfold entry in Ee; congruence). rewrite Ek in *.
  destruct (beq k ka) eqn:E.
  - apply beq_eq in E. rewrite plook_app_none by (apply Hno; exact E). cbn [plook]. rewrite E, beq_refl. reflexivity.
  - rewrite <- IH by exact Hd. clear - E. induction (rev (map entry l)) as [|[k' p] r IHr]; cbn [app plook].
    + rewrite E. reflexivity.
    + rewrite IHr. reflexivity.
Qed.

Lemma plook_set k p attrs l l' :
  entry attrs = (k, p) -> set_first k attrs l = Some l' ->
  plook k (map entry l') = Some p /\ (forall k', k' <> k -> plook k' (map entry l') = plook k' (map entry l)) /\
  map (fun a => to_str (attr_at_ a 0)) l' = map (fun a => to_str (attr_at_ a 0)) l.
Proof.
  intros Ee. assert (En : to_str (attr_at_ attrs 0) = k) by (unfold entry in Ee; congruence).
  revert l'. induction l as [|a l IH]; intros l' E; [discriminate|]. cbn [set_first] in E.
  destruct (beq (to_str (attr_at_ a 0)) k) eqn:B.
  - injection E as <-. apply beq_eq in B. cbn [map]. rewrite Ee. cbn [plook]. rewrite beq_refl.
    split; [reflexivity|]. split; [|rewrite En, B; reflexivity].
    intros k' Hk. unfold entry. rewrite B, (beq_neq k' k) by exact Hk. reflexivity.
  - destruct (set_first k attrs l) as [r|]; [|discriminate]. injection E as <-.
    destruct (IH r eq_refl) as (A & C & D). cbn [map plook]. unfold entry at 1 3 5. cbn [plook].
    assert (B' : beq k (to_str (attr_at_ a 0)) = false).
    { apply beq_neq. intros X. rewrite <- X, beq_refl in B. discriminate. }
    rewrite B'. split; [exact A|]. split; [|rewrite D; reflexivity].
    intros k' Hk. rewrite (C k' Hk). reflexivity.
Qed.
Lemma set_first_none k attrs l : set_first k attrs l = None -> plook k (map entry l) = None /\
  ~ In k (map (fun a => to_str (attr_at_ a 0)) l).
Proof.
  induction l as [|a l IH]; intros E; [split; auto|]. cbn [set_first] in E.
  destruct (beq (to_str (attr_at_ a 0)) k) eqn:B; [discriminate|].
  destruct (set_first k attrs l); [discriminate|]. destruct (IH eq_refl) as (A & C).
  cbn [map plook]. unfold entry at 1.
  assert (N : k <> to_str (attr_at_ a 0)) by (intros X; rewrite <- X, beq_refl in B; discriminate).
  rewrite (beq_neq _ _ N). split; [exact A|]. intros [X|X]; auto.
Qed.
Lemma plook_app k l m : plook k (l ++ m) = match plook k l with Some p => Some p | None => plook k m end.
Proof. induction l as [|[k' p] l IH]; [reflexivity|]. cbn [app plook]. destruct (beq k k'); [reflexivity|exact IH]. Qed.

Lemma set_first_len k attrs l l' : (4 <= length attrs)%nat -> set_first k attrs l = Some l' ->
  Forall (fun a => (4 <= length a)%nat) l -> Forall (fun a => (4 <= length a)%nat) l'.
Proof.
  intros Ha. revert l'. induction l as [|a l IH]; intros l' E H; [discriminate|]. cbn [set_first] in E. inversion H; subst.
  destruct (beq _ k); [injection E as <-; constructor; auto|].
  destruct (set_first k attrs l); [|discriminate]. injection E as <-. constructor; auto.
Qed.

Definition prop_attrs (k : bytes) (p : property) : list attr :=
  [AStr k; AStr (p_type p); AStr (p_label p); AStr (p_flag p)] ++ p_vals p.
Lemma entry_attrs k p : entry (prop_attrs k p) = (k, p).
Proof. destruct p. reflexivity. Qed.

Lemma NoDup_snoc {A} (l : list A) x : NoDup l -> ~ In x l -> NoDup (l ++ [x]).
Proof.
  induction l as [|a l IH]; intros H Hx; [repeat constructor; auto|]. inversion H; subst. cbn [app]. constructor.
  - rewrite in_app_iff. cbn. intros [X|[X|[]]]; [contradiction|]. subst. apply Hx. left. reflexivity.
  - apply IH; auto. intros X. apply Hx. right. exact X.
Qed.

Lemma set_props_fresh k p l : full_props l ->
  exists l', set_property (PObj (Some l) None None) k p = Some (PObj (Some l') None None) /\ full_props l' /\
    plook k (map entry l') = Some p /\ (forall k', k' <> k -> plook k' (map entry l') = plook k' (map entry l)).
Proof.
  intros (HL & HN). cbn [set_property]. fold (prop_attrs k p).
  destruct (set_first k (prop_attrs k p) l) as [l'|] eqn:E.
  - exists l'. split; [reflexivity|].
    destruct (plook_set k p _ _ _ (entry_attrs k p) E) as (A & B & C). split; [split|auto].
    + eapply set_first_len; eauto. cbn. lia.
    + change (NoDup (map (fun a => to_str (attr_at_ a 0)) l')). rewrite C. exact HN.
  - exists (l ++ [prop_attrs k p]). split; [reflexivity|]. apply set_first_none in E as (A & C). split; [split|split].
    + apply Forall_app. split; [exact HL|]. constructor; [cbn; lia|constructor].
    + rewrite map_app. cbn [map]. apply NoDup_snoc; [exact HN|exact C].
    + rewrite map_app, plook_app, A. cbn [map]. rewrite entry_attrs. cbn [plook]. rewrite beq_refl. reflexivity.
    + intros k' Hk. rewrite map_app, plook_app. destruct (plook k' (map entry l)); [reflexivity|].
      cbn [map]. rewrite entry_attrs. cbn [plook]. rewrite beq_neq by exact Hk. reflexivity.
Qed.

Lemma set_property_nodes l c t k p : exists l',
  set_property (PObj (Some l) c t) k p = Some (PObj (Some l') (match c with Some m => Some ((k, p) :: m) | None => None end) t) /\
  forall l'', set_property (PObj (Some l) None None) k p = Some (PObj (Some l'') None None) -> l' = l''.
Proof.
  cbn [set_property]. destruct (set_first _ _ l) as [l'|]; (eexists; split; [reflexivity|]); intros l'' E; congruence.
Qed.

Lemma get_cached nodes m t k : got (PObj nodes (Some m) t) k =
  match plook k m with Some p => Some p | None => match t with None => Some (mkP [] [] [] []) | Some t' => got t' k end end.
Proof.
  unfold got. cbn [get_property]. destruct (plook k m); [reflexivity|]. destruct t as [t'|]; [|reflexivity].
  destruct (get_property t' k) as [[p' t'']|]; reflexivity.
Qed.
Lemma get_fresh l t k : full_props l -> got (PObj (Some l) None t) k =
  match plook k (map entry l) with Some p => Some p | None => match t with None => Some (mkP [] [] [] []) | Some t' => got t' k end end.
Proof.
  intros (HL & HN). unfold got. cbn [get_property]. rewrite build_cache_eq by exact HL. rewrite app_nil_r, plook_rev by exact HN.
  destruct (plook k (map entry l)); [reflexivity|]. destruct t as [t'|]; [|reflexivity].
  destruct (get_property t' k) as [[p' t'']|]; reflexivity.
Qed.

(** The claim for both states of the map. *)
Lemma set_get l c t k p : (c = None -> full_props l) ->
  exists o', set_property (PObj (Some l) c t) k p = Some o' /\ got o' k = Some p /\
    (forall k', k' <> k -> got o' k' = got (PObj (Some l) c t) k').
Proof.
  intros H. destruct (set_property_nodes l c t k p) as (l' & E & U). rewrite E. eexists. split; [reflexivity|].
  destruct c as [m|].
  - rewrite get_cached. cbn [plook]. rewrite beq_refl. split; [reflexivity|]. intros k' Hk.
    rewrite !get_cached. cbn [plook]. rewrite (beq_neq k' k) by exact Hk. reflexivity.
  - specialize (H eq_refl). destruct (set_props_fresh k p l H) as (l2 & E2 & F2 & A & B).
    rewrite (U _ E2). rewrite get_fresh by exact F2. rewrite A. split; [reflexivity|].
    intros k' Hk. rewrite !get_fresh by assumption. rewrite (B k' Hk). reflexivity.
Qed.

Lemma got_unfold nodes c t k : got (PObj nodes c t) k =
  match (match c with Some m => Some m | None => build_cache [] (match nodes with Some l => l | None => [] end) end) with
  | None => None
  | Some m => match plook k m with Some p => Some p
              | None => match t with None => Some (mkP [] [] [] []) | Some t' => got t' k end end
  end.
Proof.
  unfold got. cbn [get_property]. destruct (match c with Some m => Some m | None => _ end) as [m|]; [|reflexivity].
  destruct (plook k m); [reflexivity|]. destruct t as [t'|]; [|reflexivity].
  destruct (get_property t' k) as [[p' t'']|]; reflexivity.
Qed.

(** Reading changes no later reading. *)
Lemma get_stable : forall o k p o', get_property o k = Some (p, o') -> forall k', got o' k' = got o k'.
Proof.
  fix IH 1. intros [nodes c t] k p o' E k'. cbn [get_property] in E.
  rewrite (got_unfold nodes c t).
  destruct (match c with Some m => Some m | None => build_cache [] (match nodes with Some l => l | None => [] end) end) as [m|] eqn:Em; [|discriminate].
  destruct (plook k m) as [q|] eqn:Ek.
  - injection E as <- <-. rewrite got_unfold. reflexivity.
  - destruct t as [t|].
    + specialize (IH t k). destruct (get_property t k) as [[q t']|]; [|discriminate]. injection E as <- <-.
      rewrite got_unfold. destruct (plook k' m); [reflexivity|]. apply (IH q). reflexivity.
    + injection E as <- <-. rewrite got_unfold. reflexivity.
Qed.

Definition usable (o : pobj) : Prop :=
  match o with PObj (Some l) c _ => c = None -> full_props l | _ => False end.
Lemma get_usable o k p o' : usable o -> get_property o k = Some (p, o') -> usable o'.
Proof.
  destruct o as [[l|] c t]; [|contradiction]. cbn [usable get_property]. intros H E.
  destruct (match c with Some m => Some m | None => _ end); [|discriminate].
  destruct (plook k _); [injection E as <- <-; cbn; discriminate|]. destruct t as [t|].
  - destruct (get_property t k) as [[q t']|]; [|discriminate]. injection E as <- <-. cbn; discriminate.
  - injection E as <- <-. cbn; discriminate.
Qed.
Lemma set_usable o k p o' : usable o -> set_property o k p = Some o' -> usable o'.
Proof.
  destruct o as [[l|] c t]; [|contradiction]. cbn [usable]. intros H E.
  destruct (set_property_nodes l c t k p) as (l' & E' & U). rewrite E' in E. injection E as <-. cbn [usable].
  destruct c as [m|]; [discriminate|]. intros _.
  destruct (set_props_fresh k p l (H eq_refl)) as (l2 & E2 & F2 & _). rewrite (U _ E2). exact F2.
Qed.

Lemma run_spec ops : forall o m, usable o -> (forall k, got o k = Some (m k)) -> run_props o ops = Some (run_map m ops).
Proof.
  induction ops as [|[k|k p] ops IH]; intros o m U H; [reflexivity| |]; cbn [run_props run_map].
  - pose proof (H k) as Hk. unfold got in Hk. destruct (get_property o k) as [[q o']|] eqn:E; [|discriminate].
    injection Hk as ->. rewrite (IH o' m); [reflexivity|eapply get_usable; eauto|].
    intros k'. rewrite (get_stable _ _ _ _ E). apply H.
  - destruct o as [[l|] c t]; [|contradiction]. cbn [usable] in U.
    destruct (set_get l c t k p U) as (o' & E & A & B). rewrite E. apply IH; [eapply set_usable; [|exact E]; exact U|].
    intros k'. destruct (beq k' k) eqn:Q; [apply beq_eq in Q; subst; exact A|].
    rewrite B; [apply H|]. intros ->. rewrite beq_refl in Q. discriminate.
Qed.

(** Reading never crashes when every property node down the templates is complete. *)
Lemma got_total : forall o k, (fix complete (o : pobj) : Prop :=
    match o with PObj nodes c t =>
      (c = None -> Forall (fun a => (4 <= length a)%nat) (match nodes with Some l => l | None => [] end)) /\
      match t with Some t' => complete t' | None => True end end) o ->
  exists p, got o k = Some p.
Proof.
  fix IH 1. intros [nodes c t] k (H & Ht). rewrite got_unfold.
  assert (E : exists m, (match c with Some m => Some m | None => build_cache [] (match nodes with Some l => l | None => [] end) end) = Some m).
  { destruct c as [m|]; [eauto|]. rewrite build_cache_eq by auto. eauto. }
  destruct E as (m & ->). destruct (plook k m); [eauto|]. destruct t as [t|]; [apply IH; exact Ht|eauto].
Qed.

(** ** Polygons *)

Lemma wrap32_id v : - 2 ^ 31 <= v < 2 ^ 31 -> wrap32 v = v.
Proof. intros H. unfold wrap32. rewrite Z.mod_small by lia. lia. Qed.

Lemma close_face_decode f : Forall vertex_index f -> f <> [] -> forall cur r,
  decode_faces cur (close_face f ++ r) = (cur ++ f) :: decode_faces [] r.
Proof.
  induction 1 as [|i f Hi Hf IH]; intros N cur r; [congruence|]. unfold vertex_index in Hi.
  destruct f as [|j f].
  - cbn [close_face app decode_faces]. rewrite wrap32_id by lia.
    assert (E : Z.lnot i = - i - 1) by (unfold Z.lnot; lia). rewrite E.
    destruct (Z.ltb_spec (- i - 1) 0); [|lia]. rewrite <- E, Z.lnot_involutive. reflexivity.
  - change (close_face (i :: j :: f)) with (wrap32 i :: close_face (j :: f)). cbn [app decode_faces].
    rewrite wrap32_id by lia. destruct (Z.ltb_spec i 0); [lia|].
    rewrite IH by discriminate. rewrite <- app_assoc. reflexivity.
Qed.

Lemma faces_round fs : Forall (fun f => f <> [] /\ Forall vertex_index f) fs -> decode_faces [] (encode_faces fs) = fs.
Proof.
  induction 1 as [|f fs (N & Hf) _ IH]; [reflexivity|]. unfold encode_faces in *. cbn [flat_map].
  rewrite close_face_decode by assumption. cbn [app]. rewrite IH. reflexivity.
Qed.

Lemma encode_not_nil f fs : f <> [] -> encode_faces (f :: fs) <> [].
Proof. intros H. destruct f as [|i [|j f]]; [congruence|discriminate|discriminate]. Qed.

Lemma new_init verts fs : Forall (fun f => f <> [] /\ Forall vertex_index f) fs ->
  init_polygons (new_geometry verts fs) = fs.
Proof.
  intros H. unfold init_polygons, new_geometry.
  cbn [find_child node_name vertices_name polygons_name beq Z.eqb Pos.eqb andb node_attrs].
  unfold get_i32s. cbn [attr_at_ nth_error to_i32s].
  destruct fs as [|f fs]; [reflexivity|].
  destruct (encode_faces (f :: fs)) as [|x l] eqn:E.
  - inversion H as [|? ? (N & _)]; subst. exfalso. eapply encode_not_nil; eauto.
  - rewrite <- E. apply faces_round. exact H.
Qed.

Lemma vec3s_flat (l : list (Z * Z * Z)) : vec3s (flat_map (fun '(x, y, z) => [x; y; z]) l) = l.
Proof. induction l as [|[[x y] z] l IH]; [reflexivity|]. cbn [flat_map app vec3s]. rewrite IH. reflexivity. Qed.
Lemma new_vertices verts fs : init_vertices (new_geometry verts fs) = verts.
Proof. unfold init_vertices, new_geometry. cbn. apply vec3s_flat. Qed.

(** Any index list that ends a polygon: decoding loses nothing. *)
Lemma decode_encode l : forall cur, Forall (fun i => - 2 ^ 31 <= i < 2 ^ 31) l -> Forall (fun i => 0 <= i < 2 ^ 31) cur ->
  (l = [] -> cur = []) -> (l <> [] -> last l 0 < 0) ->
  encode_faces (decode_faces cur l) = cur ++ l.
Proof.
  assert (C : forall cur i, Forall (fun i => 0 <= i < 2 ^ 31) cur -> - 2 ^ 31 <= i < 0 -> close_face (cur ++ [Z.lnot i]) = cur ++ [i]).
  { induction cur as [|c cur IH]; intros i Hc Hi.
    - cbn. assert (E : Z.lnot i = - i - 1) by (unfold Z.lnot; lia). rewrite wrap32_id by lia. rewrite Z.lnot_involutive. reflexivity.
    - inversion Hc; subst. cbn [app]. specialize (IH i ltac:(assumption) Hi).
      destruct (cur ++ [Z.lnot i]) as [|y r] eqn:E; [destruct cur; discriminate|].
      change (close_face (c :: y :: r)) with (wrap32 c :: close_face (y :: r)). rewrite IH, wrap32_id by lia. reflexivity. }
  induction l as [|i l IH]; intros cur Hl Hc Hn Hlast.
  - rewrite (Hn eq_refl). reflexivity.
  - inversion Hl; subst. cbn [decode_faces]. destruct (Z.ltb_spec i 0).
    + unfold encode_faces in *. cbn [flat_map]. rewrite C by (auto; lia). rewrite IH; auto.
      * rewrite <- app_assoc. reflexivity.
      * intros Nl. specialize (Hlast ltac:(discriminate)). destruct l; [congruence|exact Hlast].
    + rewrite IH; auto.
      * rewrite <- app_assoc. reflexivity.
      * apply Forall_app. split; [exact Hc|]. constructor; [lia|constructor].
      * intros ->. specialize (Hlast ltac:(discriminate)). cbn in Hlast. lia.
      * intros Nl. specialize (Hlast ltac:(discriminate)). destruct l; [congruence|exact Hlast].
Qed.

(** ** Layer elements *)

Lemma add_or_replace_find n l l' b : add_or_replace n l = (l', b) -> find_child (node_name n) l' = Some n.
Proof.
  revert l' b. induction l as [|c l IH]; intros l' b E; cbn [add_or_replace] in E.
  - injection E as <- <-. cbn. rewrite beq_refl. reflexivity.
  - destruct (beq (node_name c) (node_name n)) eqn:B.
    + injection E as <- <-. cbn. rewrite beq_refl. reflexivity.
    + destruct (add_or_replace n l) as [r b'] eqn:E2. injection E as <- <-. cbn. rewrite B. eauto.
Qed.
Lemma append_below_find nm x l l' nm' : append_below nm x l = Some l' -> nm' <> nm -> find_child nm' l' = find_child nm' l.
Proof.
  revert l'. induction l as [|c l IH]; intros l' E N; [discriminate|]. cbn [append_below] in E.
  destruct (beq (node_name c) nm) eqn:B.
  - destruct c as [a b k]. injection E as <-. cbn [find_child node_name] in *. apply beq_eq in B. subst.
    rewrite (beq_neq nm nm') by congruence. reflexivity.
  - destruct (append_below nm x l); [|discriminate]. injection E as <-. cbn [find_child].
    destruct (beq (node_name c) nm'); [reflexivity|]. auto.
Qed.
Lemma set_layer_empty kids name i values kids' arr : set_layer_element kids name i values = Some kids' -> name <> layer_name ->
  layer_array kids' name arr = None.
Proof.
  unfold set_layer_element. destruct (add_or_replace (Node name [AInt 0] []) kids) as [k1 added] eqn:E1.
  apply add_or_replace_find in E1. cbn [node_name] in E1. intros E N. unfold layer_array.
  assert (F : find_child name kids' = Some (Node name [AInt 0] [])).
  { destruct added; [rewrite (append_below_find _ _ _ _ _ E N); exact E1|congruence]. }
  rewrite F. reflexivity.
Qed.

(** ** World matrices *)

Lemma world_chain {M} (mul : M -> M -> M) local parent m l : chain parent m l ->
  forall f, (length l <= f)%nat ->
  world mul local parent f m =
    match map local l with [] => None | w :: r => Some (fold_left mul r w) end.
Proof.
  induction 1 as [m Hm|m p l Hm Hc IH]; intros f Hf.
  - destruct f; [cbn in Hf; lia|]. cbn [world]. rewrite Hm. reflexivity.
  - rewrite app_length in Hf. cbn [length] in Hf. destruct f as [|f]; [lia|]. cbn [world]. rewrite Hm, IH by lia.
    rewrite map_app. cbn [map]. destruct (map local l) as [|w r] eqn:E.
    + destruct Hc; [discriminate|]. rewrite map_app in E. destruct (map local l); discriminate.
    + cbn [app]. rewrite fold_left_app. reflexivity.
Qed.

Lemma world_cycle {M} (mul : M -> M -> M) local parent (S : nat -> Prop) :
  (forall m, S m -> exists p, parent m = Some p /\ S p) ->
  forall f m, S m -> world mul local parent f m = None.
Proof.
  intros H. induction f as [|f IH]; intros m Hm; [reflexivity|]. cbn [world].
  destruct (H m Hm) as (p & -> & Hp). rewrite IH by exact Hp. reflexivity.
Qed.

Lemma chain_exists parent (rank : nat -> nat) : (forall m p, parent m = Some p -> (rank p < rank m)%nat) ->
  forall m, exists l, chain parent m l /\ (length l <= S (rank m))%nat.
Proof.
  intros H m. induction m as [m IH] using (well_founded_induction (Wf_nat.well_founded_ltof _ rank)).
  destruct (parent m) as [p|] eqn:E.
  - destruct (IH p (H _ _ E)) as (l & C & L). exists (l ++ [m]). split; [econstructor; eauto|].
    rewrite app_length. cbn [length]. pose proof (H _ _ E). lia.
  - exists [m]. split; [constructor; exact E|]. cbn. lia.
Qed.

Lemma world_product (parent : nat -> option nat) rank m :
  (forall m p, parent m = Some p -> (rank p < rank m)%nat) ->
  exists l, chain parent m l /\ forall (M : Type) (mul : M -> M -> M) local f, (S (rank m) <= f)%nat ->
    world mul local parent f m = match map local l with [] => None | w :: r => Some (fold_left mul r w) end.
Proof.
  intros H. destruct (chain_exists parent rank H m) as (l & C & L). exists l. split; [exact C|].
  intros M mul local f Hf. apply world_chain; [exact C|lia].
Qed.
Lemma chain_unique parent m l : chain parent m l -> forall l', chain parent m l' -> l = l'.
Proof.
  induction 1 as [m Hm|m p l Hm Hc IH]; intros l' H'; inversion H'; subst; try congruence.
  f_equal. apply IH. congruence.
Qed.

Lemma close_face_len f : length (close_face f) = length f.
Proof. induction f as [|i [|j f] IH]; [reflexivity|reflexivity|]. cbn [close_face length] in *. rewrite IH. reflexivity. Qed.
Lemma new_count verts fs : fs <> [] -> Forall (fun f => f <> [] /\ Forall vertex_index f) fs ->
  init_count (new_geometry verts fs) = length (concat fs).
Proof.
  intros N H. unfold init_count, new_geometry.
  cbn [find_child node_name vertices_name polygons_name beq Z.eqb Pos.eqb andb node_attrs].
  unfold get_i32s. cbn [attr_at_ nth_error to_i32s].
  destruct fs as [|f fs]; [congruence|].
  assert (E : length (encode_faces (f :: fs)) = length (concat (f :: fs))).
  { clear. induction (f :: fs) as [|g l IH]; [reflexivity|]. unfold encode_faces in *. cbn [flat_map concat].
    rewrite !app_length, close_face_len, IH. reflexivity. }
  destruct (encode_faces (f :: fs)) as [|x l] eqn:Q; [|exact E].
  inversion H as [|? ? (Nf & _)]; subst. exfalso. eapply encode_not_nil; eauto.
Qed.

Lemma prop_crashes cache tmpl k p :
  set_property (PObj None cache tmpl) k p = None /\
  (forall a r, (length a < 4)%nat -> get_property (PObj (Some (a :: r)) None tmpl) k = None).
Proof.
  split; [reflexivity|]. intros a r H. cbn [get_property build_cache]. unfold prop_of.
  destruct (Nat.ltb_spec (length a) 4); [reflexivity|lia].
Qed.

Lemma layer_lost kids kids' :
  (forall mat mapping, set_materials kids mat mapping = Some kids' -> forall arr, layer_array kids' material_el arr = None) /\
  (forall ns mapping, set_normals kids ns mapping = Some kids' -> forall arr, layer_array kids' normal_el arr = None).
Proof. split; intros x y E arr; eapply set_layer_empty; try exact E; discriminate. Qed.

Lemma add_or_replace_other n l l' b nm : add_or_replace n l = (l', b) -> nm <> node_name n -> find_child nm l' = find_child nm l.
Proof.
  intros E N. revert l' b E. induction l as [|c l IH]; intros l' b E; cbn [add_or_replace] in E.
  - injection E as <- <-. cbn. rewrite beq_neq by congruence. reflexivity.
  - destruct (beq (node_name c) (node_name n)) eqn:B.
    + injection E as <- <-. apply beq_eq in B. cbn. rewrite B, beq_neq by congruence. reflexivity.
    + destruct (add_or_replace n l) as [r b'] eqn:E2. injection E as <- <-. cbn. destruct (beq (node_name c) nm); eauto.
Qed.
Lemma uv_wrong kids kids' uv idx mapping : set_uvs kids uv idx mapping = Some kids' ->
  (forall arr, layer_array kids' normal_el arr = None) /\
  (forall arr, layer_array kids' uv_el arr = layer_array kids uv_el arr).
Proof.
  intros E. split; [intros arr; eapply set_layer_empty; [exact E|discriminate]|].
  intros arr. unfold set_uvs, set_layer_element in E.
  destruct (add_or_replace (Node normal_el [AInt 0] []) kids) as [k1 added] eqn:E1.
  unfold layer_array.
  assert (F : find_child uv_el kids' = find_child uv_el kids).
  { rewrite <- (add_or_replace_other _ _ _ _ uv_el E1) by discriminate.
    destruct added; [|congruence]. eapply append_below_find; [exact E|discriminate]. }
  rewrite F. reflexivity.
Qed.

(** The parent is the target of the last connection of the model. *)
Lemma parent_of_spec m conns : match parent_of m conns with
  | Some p => exists a b, conns = a ++ (m, p) :: b /\ ~ In m (map fst b)
  | None => ~ In m (map fst conns)
  end.
Proof.
  induction conns as [|[f t] r IH]; cbn; [tauto|]. destruct (parent_of m r) as [p|].
  - destruct IH as (a & b & -> & H). exists ((f, t) :: a), b. split; [reflexivity|exact H].
  - destruct (Nat.eqb_spec f m) as [-> |Hf]; [exists [], r; split; [reflexivity|exact IH]|]. cbn. intuition.
Qed.
