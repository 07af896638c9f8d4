(** Proofs about the MQO document operations. *)
From Coq Require Import String DecimalString DecimalNat List ZArith Bool Arith Lia FinFun.
From Verif.Model Require Import Num Vec Matrix Mqo MqoDoc.
From Verif.Spec Require Import DocSpec.
Import ListNotations.

(** ** Names *)
Lemma str_mem_In s l : str_mem s l = true <-> In s l.
Proof.
  unfold str_mem. rewrite existsb_exists. split.
  - intros [x [Hx E]]. apply String.eqb_eq in E. subst; exact Hx.
  - intro H. exists s. split; [exact H | apply String.eqb_refl].
Qed.
Lemma dec_inj m n : dec m = dec n -> m = n.
Proof.
  unfold dec; intro E.
  assert (E2 := f_equal NilEmpty.uint_of_string E). rewrite !NilEmpty.usu in E2.
  injection E2 as E3. assert (E4 := f_equal Nat.of_uint E3).
  rewrite !DecimalNat.Unsigned.of_to in E4. exact E4.
Qed.
Lemma append_inj_l a b c : (a ++ b = a ++ c)%string -> b = c.
Proof. induction a; cbn; intro E; [exact E | injection E; auto]. Qed.
Lemma suffixed_inj name m n : suffixed name m = suffixed name n -> m = n.
Proof.
  unfold suffixed; intro E. apply append_inj_l in E. apply (append_inj_l "_") in E. apply dec_inj; exact E.
Qed.

Lemma free_suffix_some fuel seen name n s : free_suffix fuel seen name n = Some s ->
  exists k, n <= k /\ s = suffixed name k /\ ~ In s seen /\
            forall j, n <= j < k -> In (suffixed name j) seen.
Proof.
  revert n; induction fuel as [|f IH]; intros n E; cbn in E; [discriminate|].
  destruct (str_mem (suffixed name n) seen) eqn:M.
  - apply IH in E. destruct E as [k [L [E [F A]]]].
    exists k. split; [lia|]. split; [exact E|]. split; [exact F|].
    intros j Hj. destruct (Nat.eq_dec j n) as [->|Ne]; [apply str_mem_In; exact M | apply A; lia].
  - injection E as <-. exists n. split; [lia|]. split; [reflexivity|].
    split; [intro C; apply str_mem_In in C; congruence | intros j Hj; lia].
Qed.
Lemma free_suffix_none fuel seen name n : free_suffix fuel seen name n = None ->
  forall j, n <= j < n + fuel -> In (suffixed name j) seen.
Proof.
  revert n; induction fuel as [|f IH]; intros n E j Hj; [lia|]. cbn in E.
  destruct (str_mem (suffixed name n) seen) eqn:M; [|discriminate].
  destruct (Nat.eq_dec j n) as [->|Ne]; [apply str_mem_In; exact M|]. apply (IH (S n) E); lia.
Qed.
Lemma free_suffix_total seen name n : free_suffix (S (length seen)) seen name n <> None.
Proof.
  intro E. assert (A := free_suffix_none _ _ _ _ E).
  set (l := map (suffixed name) (seq n (S (length seen)))).
  assert (ND : NoDup l).
  { apply FinFun.Injective_map_NoDup; [intros x y; apply suffixed_inj | apply seq_NoDup]. }
  assert (I : incl l seen).
  { intros x Hx. apply in_map_iff in Hx. destruct Hx as [j [<- Hj]]. apply in_seq in Hj. apply A; lia. }
  apply (NoDup_incl_length ND) in I. unfold l in I. rewrite map_length, seq_length in I. lia.
Qed.

Lemma fix_list_spec names : forall seen, exists news,
  fix_list seen names = Some news /\ length news = length names /\
  (NoDup seen -> NoDup (rev news ++ seen)) /\
  forall i old new, nth_error names i = Some old -> nth_error news i = Some new ->
    let before := rev (firstn i news) ++ seen in
    (~ In old before /\ new = old) \/
    (In old before /\ exists k, 2 <= k /\ new = suffixed old k /\ ~ In new before /\
       forall j, 2 <= j < k -> In (suffixed old j) before).
Proof.
  induction names as [|nm r IH]; intro seen.
  - exists []. split; [reflexivity|]. split; [reflexivity|]. split; [auto|].
    intros [|i] old new E; discriminate.
  - cbn [fix_list].
    destruct (if str_mem nm seen then free_suffix (S (length seen)) seen nm 2 else Some nm) as [nm'|] eqn:E.
    2:{ destruct (str_mem nm seen); [|discriminate]. exfalso. exact (free_suffix_total _ _ _ E). }
    assert (F : (~ In nm seen /\ nm' = nm) \/
                (In nm seen /\ exists k, 2 <= k /\ nm' = suffixed nm k /\ ~ In nm' seen /\
                   forall j, 2 <= j < k -> In (suffixed nm j) seen)).
    { destruct (str_mem nm seen) eqn:M.
      - right. split; [apply str_mem_In; exact M|]. exact (free_suffix_some _ _ _ _ _ E).
      - left. injection E as <-. split; [|reflexivity]. intro C; apply str_mem_In in C; congruence. }
    assert (NI : ~ In nm' seen) by (destruct F as [[? ->]|[_ [k [_ [_ [? _]]]]]]; assumption).
    destruct (IH (nm' :: seen)) as [news [E1 [L [ND A]]]].
    rewrite E1. exists (nm' :: news). split; [reflexivity|]. split; [cbn; lia|]. split.
    + intro HS. cbn [rev]. rewrite <- app_assoc. apply ND. constructor; assumption.
    + intros [|i] old new Ho Hn; cbn in Ho, Hn.
      * injection Ho as ->. injection Hn as ->. cbn. exact F.
      * cbn [firstn rev]. rewrite <- app_assoc. cbn [app]. exact (A i old new Ho Hn).
Qed.

Lemma fix_list_ok names : exists news,
  fix_list [] names = Some news /\ NoDup news /\ renaming names news.
Proof.
  destruct (fix_list_spec names []) as [news [E [L [ND A]]]].
  exists news. split; [exact E|]. split.
  - specialize (ND (NoDup_nil _)). rewrite app_nil_r in ND. apply NoDup_rev in ND.
    rewrite rev_involutive in ND. exact ND.
  - split; [exact L|]. intros i old new Ho Hn. specialize (A i old new Ho Hn). cbn in A.
    rewrite app_nil_r in A. unfold with_suffix. unfold suffixed, dec in A.
    destruct A as [[A B]|[A [k [B [C [D F]]]]]].
    + left. split; [|exact B]. intro X; apply A. apply -> in_rev. exact X.
    + right. split; [apply in_rev; exact A|]. exists k. split; [exact B|]. split; [exact C|].
      split; [intro X; apply D; apply -> in_rev; exact X|].
      intros j Hj. apply in_rev. apply F; exact Hj.
Qed.

Lemma fix_list_id names : forall seen, NoDup (names ++ seen) -> fix_list seen names = Some names.
Proof.
  induction names as [|nm r IH]; intros seen H; [reflexivity|]. cbn. inversion H as [|? ? NI ND]; subst.
  destruct (str_mem nm seen) eqn:M.
  - apply str_mem_In in M. exfalso. apply NI. apply in_or_app; auto.
  - rewrite IH; [reflexivity|]. apply NoDup_Add with (a := nm) (l := r ++ seen); [|constructor; assumption].
    apply Add_app.
Qed.

Section Doc.
Context {T : Type} {N : Num T}.

Lemma rename_map {A} (get : A -> string) (set : A -> string -> A) (l : list A) ns :
  (forall a n, get (set a n) = n) -> length ns = length l ->
  map get (map (fun p => set (fst p) (snd p)) (combine l ns)) = ns.
Proof.
  intros G. revert ns; induction l as [|a l IH]; intros [|n ns] E; try discriminate; [reflexivity|].
  cbn. rewrite G, IH; [reflexivity | cbn in E; lia].
Qed.
Lemma rename_same {A} (get : A -> string) (set : A -> string -> A) (l : list A) :
  (forall a, set a (get a) = a) -> map (fun p => set (fst p) (snd p)) (combine l (map get l)) = l.
Proof. intro G; induction l as [|a l IH]; [reflexivity|]. cbn. rewrite G, IH. reflexivity. Qed.
Lemma rename_other {A} (get : A -> string) (set : A -> string -> A) (l : list A) ns :
  (forall a n m, set (set a n) m = set a m) -> (forall a, set a (get a) = a) -> length ns = length l ->
  map (fun p => set (fst p) (snd p))
      (combine (map (fun p => set (fst p) (snd p)) (combine l ns)) (map get l)) = l.
Proof.
  intros G1 G2. revert ns; induction l as [|a l IH]; intros [|n ns] E; try discriminate; [reflexivity|].
  cbn. rewrite G1, G2, IH; [reflexivity | cbn in E; lia].
Qed.

Lemma fix_names_ok (d : document T) : exists d', fix_names d = Some d' /\
  NoDup (map oName (dObjects d')) /\ NoDup (map mtName (dMaterials d')) /\
  renaming (map oName (dObjects d)) (map oName (dObjects d')) /\
  renaming (map mtName (dMaterials d)) (map mtName (dMaterials d')) /\
  map (fun p => set_name (fst p) (snd p)) (combine (dObjects d') (map oName (dObjects d))) = dObjects d /\
  map (fun p => set_mat_name (fst p) (snd p)) (combine (dMaterials d') (map mtName (dMaterials d))) = dMaterials d /\
  fix_names d' = Some d'.
Proof.
  destruct (fix_list_ok (map oName (dObjects d))) as [os [E1 [N1 R1]]].
  destruct (fix_list_ok (map mtName (dMaterials d))) as [ms [E2 [N2 R2]]].
  assert (L1 := proj1 R1). assert (L2 := proj1 R2). rewrite map_length in L1, L2.
  unfold fix_names at 1. rewrite E1, E2. eexists. split; [reflexivity|]. cbn [dObjects dMaterials].
  rewrite (rename_map oName set_name _ _) by (reflexivity || exact L1).
  rewrite (rename_map mtName set_mat_name _ _) by (reflexivity || exact L2).
  split; [exact N1|]. split; [exact N2|]. split; [exact R1|]. split; [exact R2|].
  split; [apply rename_other; [reflexivity | intros []; reflexivity | exact L1]|].
  split; [apply rename_other; [reflexivity | intros []; reflexivity | exact L2]|].
  unfold fix_names; cbn [dObjects dMaterials].
  rewrite (rename_map oName set_name _ _) by (reflexivity || exact L1).
  rewrite (rename_map mtName set_mat_name _ _) by (reflexivity || exact L2).
  rewrite !fix_list_id by (rewrite app_nil_r; assumption).
  set (os' := map _ (combine (dObjects d) os)). set (ms' := map _ (combine (dMaterials d) ms)).
  assert (Ho : map oName os' = os) by (apply rename_map; [reflexivity | exact L1]).
  assert (Hm : map mtName ms' = ms) by (apply rename_map; [reflexivity | exact L2]).
  rewrite <- Ho at 1. rewrite <- Hm at 1.
  rewrite !rename_same by (intros []; reflexivity). reflexivity.
Qed.

(** ** Object ids *)
Lemma fix_ids_nth (os : list (object T)) : forall i k, nth_error (fix_ids i os) k =
  option_map (fun o => if (oUID o =? 0)%Z then set_uid o (i + Z.of_nat k + 1) else o) (nth_error os k).
Proof.
  induction os as [|o r IH]; intros i [|k]; try reflexivity.
  - cbn. destruct (oUID o =? 0)%Z; [|reflexivity]. do 3 f_equal. lia.
  - cbn [fix_ids nth_error]. rewrite IH. destruct (nth_error r k) as [x|]; [|reflexivity].
    cbn. destruct (oUID x =? 0)%Z; [|reflexivity]. do 3 f_equal. lia.
Qed.
Lemma fix_ids_length (os : list (object T)) : forall i, length (fix_ids i os) = length os.
Proof. induction os as [|o r IH]; intro i; cbn; [reflexivity | rewrite IH; reflexivity]. Qed.

Lemma fix_object_id_nth (d : document T) k o : nth_error (dObjects d) k = Some o ->
  nth_error (dObjects (fix_object_id d)) k =
  Some (if (oUID o =? 0)%Z then set_uid o (Z.of_nat k + 1) else o).
Proof.
  intro E. unfold fix_object_id; cbn [dObjects]. rewrite fix_ids_nth, E. cbn.
  destruct (oUID o =? 0)%Z; [|reflexivity]. do 2 f_equal.
Qed.
Lemma fix_object_id_inv (d : document T) k o' : nth_error (dObjects (fix_object_id d)) k = Some o' ->
  exists o, nth_error (dObjects d) k = Some o /\
            o' = if (oUID o =? 0)%Z then set_uid o (Z.of_nat k + 1) else o.
Proof.
  intro E. destruct (nth_error (dObjects d) k) as [o|] eqn:Eo.
  - exists o. split; [reflexivity|]. rewrite (fix_object_id_nth d k o Eo) in E. congruence.
  - unfold fix_object_id in E; cbn [dObjects] in E. rewrite fix_ids_nth, Eo in E. discriminate.
Qed.

Lemma index_of_uid_first os id i : index_of_uid os id = Some i ->
  (exists o : object T, nth_error os i = Some o /\ oUID o = id) /\
  forall j o, j < i -> nth_error os j = Some o -> oUID o <> id.
Proof.
  revert i; induction os as [|o r IH]; intros i E; cbn in E; [discriminate|].
  destruct (oUID o =? id)%Z eqn:U.
  - injection E as <-. apply Z.eqb_eq in U. split; [exists o; auto|]. intros j ? Hj; lia.
  - destruct (index_of_uid r id) as [i'|] eqn:E'; [|discriminate]. injection E as <-.
    destruct (IH i' eq_refl) as [[x [Hx Ux]] A]. split; [exists x; auto|].
    intros [|j] y Hj Hy; cbn in Hy.
    + injection Hy as <-. apply Z.eqb_neq; exact U.
    + apply (A j); [lia | exact Hy].
Qed.
Lemma index_of_uid_found os id i (o : object T) : nth_error os i = Some o -> oUID o = id ->
  exists k, index_of_uid os id = Some k.
Proof.
  revert i; induction os as [|x r IH]; intros i E U; [destruct i; discriminate|]. cbn.
  destruct (oUID x =? id)%Z eqn:W; [eauto|].
  destruct i as [|i]; [injection E as <-; rewrite U, Z.eqb_refl in W; discriminate|].
  destruct (IH i E U) as [k ->]. cbn. eauto.
Qed.

Lemma get_unique (d : document T) i o : NoDup (map oUID (dObjects d)) ->
  nth_error (dObjects d) i = Some o -> get_object_by_id d (oUID o) = Some o.
Proof.
  intros ND E. unfold get_object_by_id.
  destruct (index_of_uid_found _ _ _ _ E eq_refl) as [k Ek]. rewrite Ek.
  destruct (index_of_uid_first _ _ _ Ek) as [[x [Hx Ux]] _].
  assert (k = i); [|congruence].
  apply (proj1 (NoDup_nth_error _) ND).
  - rewrite map_length. apply nth_error_Some. congruence.
  - rewrite !nth_error_map, Hx, E. cbn. congruence.
Qed.

Lemma fix_object_id_unique (d : document T) :
  (forall i j oi oj, nth_error (dObjects d) i = Some oi -> nth_error (dObjects d) j = Some oj ->
     oUID oi <> 0%Z ->
     (i <> j -> oUID oj <> 0%Z -> oUID oi <> oUID oj) /\
     (oUID oj = 0%Z -> oUID oi <> (Z.of_nat j + 1)%Z)) ->
  NoDup (map oUID (dObjects (fix_object_id d))).
Proof.
  intro H. apply NoDup_nth_error. intros i j Hi E.
  rewrite map_length in Hi. rewrite !nth_error_map in E.
  destruct (nth_error (dObjects (fix_object_id d)) i) as [oi'|] eqn:Ei; [|apply nth_error_None in Ei; lia].
  destruct (nth_error (dObjects (fix_object_id d)) j) as [oj'|] eqn:Ej; [|discriminate].
  cbn in E. injection E as E.
  destruct (fix_object_id_inv d i oi' Ei) as [oi [Ei' Hoi]].
  destruct (fix_object_id_inv d j oj' Ej) as [oj [Ej' Hoj]].
  destruct (Nat.eq_dec i j) as [|Ne]; [assumption|]. exfalso.
  destruct (Z.eqb_spec (oUID oi) 0) as [Zi|Zi]; destruct (Z.eqb_spec (oUID oj) 0) as [Zj|Zj];
    subst oi' oj'; cbn in E.
  - lia.
  - destruct (H j i oj oi Ej' Ei' Zj) as [_ B]. apply (B Zi). lia.
  - destruct (H i j oi oj Ei' Ej' Zi) as [_ B]. apply (B Zj). lia.
  - destruct (H i j oi oj Ei' Ej' Zi) as [A _]. exact (A Ne Zj E).
Qed.

(** ** Vertex ids *)
Lemma vertex_index_cases (o : object T) uid :
  (forall i, assoc (oVertexByUID o) uid = Some i -> get_vertex_index_by_id o uid = i) /\
  (assoc (oVertexByUID o) uid = None ->
     (1 <= uid <= Z.of_nat (length (oVerts o)) -> get_vertex_index_by_id o uid = uid - 1) /\
     (Z.of_nat (length (oVerts o)) < uid \/ uid = 0 -> get_vertex_index_by_id o uid = -1))%Z.
Proof.
  unfold get_vertex_index_by_id. split.
  - intros i ->. reflexivity.
  - intros ->. split; intro H.
    + destruct (Z.leb_spec uid (Z.of_nat (length (oVerts o)))); lia.
    + destruct (Z.leb_spec uid (Z.of_nat (length (oVerts o)))); lia.
Qed.
End Doc.

(** ** World transforms *)
Section World.
Context {M : Type} (one : M) (mul : M -> M -> M).

(** Invariant at position [n]: the stack (above the bottom) lists preceding objects, nearest
    first; the objects between two neighbours are no deeper than the upper one, and those after
    the topmost are no deeper than [b]. *)
Inductive stack_ok (objs : list (Z * M)) (ws : list M) : nat -> Z -> list (Z * M) -> Prop :=
| st_bottom n b :
    (forall k d l, k < n -> nth_error objs k = Some (d, l) -> (d <= b)%Z) ->
    stack_ok objs ws n b [((-1)%Z, one)]
| st_push n b j d l w st : j < n ->
    (forall k d' l', j < k < n -> nth_error objs k = Some (d', l') -> (d' <= b)%Z) ->
    nth_error objs j = Some (d, l) -> nth_error ws j = Some w ->
    stack_ok objs ws j d st -> stack_ok objs ws n b ((d, w) :: st).

Lemma stack_weaken objs ws n b b' st : stack_ok objs ws n b st -> (b <= b')%Z -> stack_ok objs ws n b' st.
Proof.
  intros H L. inversion H; subst.
  - apply st_bottom. intros k d l Hk E. specialize (H0 k d l Hk E). lia.
  - eapply st_push; eauto. intros k d' l' Hk E. specialize (H1 k d' l' Hk E). lia.
Qed.
Lemma stack_nonempty objs ws n b st : stack_ok objs ws n b st -> st <> [].
Proof. intro H; inversion H; discriminate. Qed.

(** Extending [ws] does not matter. *)
Lemma stack_ws objs ws ws' n b st : stack_ok objs ws n b st ->
  (forall j w, j < n -> nth_error ws j = Some w -> nth_error ws' j = Some w) -> stack_ok objs ws' n b st.
Proof.
  intros H A. induction H; [apply st_bottom; assumption|].
  eapply st_push; eauto. apply IHstack_ok. intros i x Hi. apply A. lia.
Qed.

Lemma pop_spec objs ws D st : forall n b, stack_ok objs ws n b st -> (b <= D)%Z ->
  stack_ok objs ws n D (pop_le D st) /\
  match pop_le D st with (d, _) :: _ :: _ => (D < d)%Z | _ => True end.
Proof.
  induction st as [|[d w] st IH]; intros n b H L; [inversion H|].
  inversion H; subst.
  - cbn. split; [apply (stack_weaken _ _ _ b); assumption | exact I].
  - match goal with Hs : stack_ok objs ws ?jj d st |- _ => rename jj into j; rename Hs into HS end.
    destruct st as [|x st]; [inversion HS|]. cbn [pop_le].
    destruct (Z.leb_spec d D) as [Ld|Gd].
    + destruct (IH j d HS Ld) as [A B]. split; [|exact B].
      assert (Q : forall k d' l', j <= k < n -> nth_error objs k = Some (d', l') -> (d' <= D)%Z).
      { intros k d' l' Hk E. destruct (Nat.eq_dec k j) as [->|Ne].
        - assert (d' = d) by congruence. lia.
        - assert (d' <= b)%Z by (eapply H4; [|exact E]; lia). lia. }
      inversion A as [n1 b1 A1 En Eb Es | n1 b1 j1 d1 l1 w1 st1 Hj1 A1 Ej1 Ew1 S1 En Eb Es].
      * apply st_bottom. intros k d' l' Hk E. destruct (Nat.lt_ge_cases k j) as [Lk|Gk].
        -- exact (A1 k d' l' Lk E).
        -- apply (Q k d' l'); [lia | exact E].
      * apply (st_push objs ws n D j1 d1 l1 w1 st1); try assumption; [lia|].
        intros k d' l' Hk E. destruct (Nat.lt_ge_cases k j) as [Lk|Gk].
        -- apply (A1 k d' l'); [lia | exact E].
        -- apply (Q k d' l'); [lia | exact E].
    + split; [|exact Gd]. apply (stack_weaken _ _ _ b); [exact H | exact L].
Qed.

(** What the code computes: the parent is the nearest preceding object of *greater* depth. *)
Lemma world_loop_spec objs : forall rest pre ws st,
  objs = pre ++ rest -> length ws = length pre ->
  (forall b, stack_ok objs ws (length pre) b st) ->
  forall i d l w, nth_error objs (length pre + i) = Some (d, l) ->
    nth_error (world_loop one mul st rest) i = Some w ->
    let ws' := ws ++ world_loop one mul st rest in
    (exists j wj, nearest_before objs (fun d' => (d < d')%Z) (length pre + i) j /\
                  nth_error ws' j = Some wj /\ w = mul wj l) \/
    (none_before objs (fun d' => (d < d')%Z) (length pre + i) /\ w = mul one l).
Proof.
  induction rest as [|[d0 l0] rest IH]; intros pre ws st EO LW ST i d l w Eo Ew; [destruct i; discriminate|].
  cbn [world_loop] in *.
  set (st' := pop_le d0 st) in *. set (w0 := mul (top one st') l0) in *.
  assert (E0 : nth_error objs (length pre) = Some (d0, l0)).
  { rewrite EO, nth_error_app2, Nat.sub_diag by lia. reflexivity. }
  destruct (pop_spec objs ws d0 st (length pre) d0 (ST d0) (Z.le_refl _)) as [SP TP]. fold st' in SP, TP.
  destruct i as [|i].
  - rewrite Nat.add_0_r in *. cbn in Ew. injection Ew as <-. rewrite E0 in Eo. injection Eo as <- <-.
    inversion SP as [n b A En Eb Es | n b j dj lj wj st2 Hj A Ej Ewj Ss En Eb Es]; subst.
    + right. split.
      * intros k d' l' Hk E. specialize (A k d' l' Hk E). lia.
      * unfold w0. rewrite <- Es. reflexivity.
    + left. exists j, wj. split.
      * split; [exact Hj|]. split.
        -- exists dj, lj. split; [exact Ej|]. rewrite <- Es in TP. destruct st2; [inversion Ss|exact TP].
        -- intros k d' l' Hk E. specialize (A k d' l' Hk E). lia.
      * split; [|unfold w0; rewrite <- Es; reflexivity].
        cbn. rewrite nth_error_app1; [exact Ewj|]. apply nth_error_Some. congruence.
  - replace (length pre + S i) with (length (pre ++ [(d0, l0)]) + i) in * by (rewrite app_length; cbn; lia).
    specialize (IH (pre ++ [(d0, l0)]) (ws ++ [w0]) ((d0, w0) :: st')).
    cbn in Ew. rewrite <- app_assoc in IH. cbn [app] in IH.
    rewrite <- app_assoc in IH. cbn [app] in IH.
    apply IH; try assumption.
    + rewrite !app_length, LW. reflexivity.
    + intro b. eapply st_push with (j := length pre) (l := l0).
      * rewrite app_length; cbn; lia.
      * intros k d' l' Hk. rewrite app_length in Hk; cbn in Hk; lia.
      * exact E0.
      * rewrite nth_error_app2, LW, Nat.sub_diag by lia. reflexivity.
      * apply (stack_ws _ ws); [exact SP|]. intros j x Hj Ex. rewrite nth_error_app1; [exact Ex | lia].
Qed.
Lemma world_loop_length st objs : length (world_loop one mul st objs) = length objs.
Proof. revert st; induction objs as [|[d l] r IH]; intro st; cbn; [reflexivity|]. rewrite IH; reflexivity. Qed.

Lemma world_transforms_spec objs :
  world_by mul one (fun d' d => (d < d')%Z) objs (world_transforms one mul objs).
Proof.
  split; [apply world_loop_length|]. intros i d l w Eo Ew.
  apply (world_loop_spec objs objs [] [] [((-1)%Z, one)] eq_refl eq_refl); [|exact Eo|exact Ew].
  intro b. apply st_bottom. intros k d' l' Hk; cbn in Hk; lia.
Qed.

Lemma world_transforms_flat objs D : (forall d l, In (d, l) objs -> d = D) ->
  world_by mul one (fun d' d => (d' < d)%Z) objs (world_transforms one mul objs).
Proof.
  intro F. destruct (world_transforms_spec objs) as [L A]. split; [exact L|].
  intros i d l w Eo Ew. right.
  assert (Q : forall k d' l', nth_error objs k = Some (d', l') -> d' = D).
  { intros k d' l' E. apply (F d' l'). eapply nth_error_In; exact E. }
  assert (d = D) by (eapply Q; exact Eo). split.
  - intros k d' l' _ E. apply Q in E. lia.
  - destruct (A i d l w Eo Ew) as [[j [wj [[_ [[d' [l' [Ej P]]] _]] _]]]|[_ ->]]; [|reflexivity].
    apply Q in Ej. lia.
Qed.
End World.

(** ** Who keeps the name *)
Section Holder.
Context {T : Type}.
Lemma renaming_before olds news : renaming olds news -> forall i n, In n (firstn i news) ->
  exists o, In o (firstn i olds) /\ (n = o \/ exists k, n = with_suffix o k).
Proof.
  intros [L R] i n H. apply In_nth_error in H. destruct H as [j Ej].
  assert (Lj : j < i).
  { assert (X : j < length (firstn i news)) by (apply nth_error_Some; congruence). rewrite firstn_length in X. lia. }
  assert (F : forall (l : list string), nth_error (firstn i l) j = nth_error l j).
  { clear - Lj. revert j Lj. induction i as [|i IH]; intros j Lj l; [lia|]. destruct l; [destruct j; reflexivity|].
    destruct j; [reflexivity|]. cbn. apply IH; lia. }
  rewrite F in Ej. destruct (nth_error olds j) as [o|] eqn:Eo.
  2:{ apply nth_error_None in Eo. assert (X : j < length news) by (apply nth_error_Some; congruence). lia. }
  exists o. split; [apply (nth_error_In _ j); rewrite F; exact Eo|].
  destruct (R j o n Eo Ej) as [[_ ->]|[_ [k [_ [-> _]]]]]; [left; reflexivity | right; exists k; reflexivity].
Qed.
Lemma first_holder (d d' : document T) i o : fix_names d = Some d' -> nth_error (dObjects d) i = Some o ->
  ~ In (oName o) (firstn i (map oName (dObjects d))) ->
  (forall n k, In n (firstn i (map oName (dObjects d))) -> oName o <> with_suffix n k) ->
  nth_error (dObjects d') i = Some o.
Proof.
  intros E Eo Ni Nk. destruct (fix_names_ok d) as [d2 [E2 [_ [_ [R [_ [Back _]]]]]]].
  rewrite E in E2. injection E2 as <-.
  assert (Lo : length (map oName (dObjects d')) = length (map oName (dObjects d))) by exact (proj1 R).
  rewrite !map_length in Lo.
  destruct (nth_error (dObjects d') i) as [o'|] eqn:Eo'.
  2:{ apply nth_error_None in Eo'. assert (X : i < length (dObjects d)) by (apply nth_error_Some; congruence). lia. }
  assert (Nm : oName o' = oName o).
  { destruct (proj2 R i (oName o) (oName o')) as [[_ H]|[H _]];
      [rewrite nth_error_map, Eo; reflexivity | rewrite nth_error_map, Eo'; reflexivity | exact H |].
    exfalso. destruct (renaming_before _ _ R i _ H) as [n [Hn [En|[k Ek]]]]; [rewrite En in Ni; exact (Ni Hn) | exact (Nk n k Hn Ek)]. }
  f_equal. assert (X : nth_error (map (fun p => set_name (fst p) (snd p)) (combine (dObjects d') (map oName (dObjects d)))) i = Some o)
    by (rewrite Back; exact Eo).
  rewrite nth_error_map in X.
  assert (C : nth_error (combine (dObjects d') (map oName (dObjects d))) i = Some (o', oName o)).
  { clear - Eo Eo'. revert i Eo Eo'. generalize (dObjects d') (dObjects d).
    induction l as [|a l IH]; intros [|b l2] [|i] H1 H2; cbn in *; try discriminate; [congruence | apply IH; assumption]. }
  rewrite C in X. cbn in X. injection X as <-. rewrite <- Nm. destruct o'; reflexivity.
Qed.
End Holder.

Section Ids.
Context {T : Type}.
Lemma fix_object_id_nonzero (d : document T) :
  length (dObjects (fix_object_id d)) = length (dObjects d) /\
  dMaterials (fix_object_id d) = dMaterials d /\
  forall o, In o (dObjects (fix_object_id d)) -> oUID o <> 0%Z.
Proof.
  split; [apply fix_ids_length|]. split; [reflexivity|]. intros o H. apply In_nth_error in H. destruct H as [k E].
  destruct (fix_object_id_inv d k o E) as [o0 [_ ->]]. destruct (Z.eqb_spec (oUID o0) 0); [cbn; lia | assumption].
Qed.
Lemma fix_object_id_lookup (d : document T) :
  (forall i j oi oj, nth_error (dObjects d) i = Some oi -> nth_error (dObjects d) j = Some oj ->
     oUID oi <> 0%Z ->
     (i <> j -> oUID oj <> 0%Z -> oUID oi <> oUID oj) /\
     (oUID oj = 0%Z -> oUID oi <> (Z.of_nat j + 1)%Z)) ->
  NoDup (map oUID (dObjects (fix_object_id d))) /\
  forall i o, nth_error (dObjects (fix_object_id d)) i = Some o ->
    get_object_by_id (fix_object_id d) (oUID o) = Some o.
Proof.
  intro H. assert (ND := fix_object_id_unique d H). split; [exact ND|].
  intros i o E. exact (get_unique _ i o ND E).
Qed.
Lemma fix_object_id_needed (d : document T) :
  NoDup (map oUID (dObjects (fix_object_id d))) ->
  forall i j oi oj, nth_error (dObjects d) i = Some oi -> nth_error (dObjects d) j = Some oj ->
     oUID oi <> 0%Z ->
     (i <> j -> oUID oj <> 0%Z -> oUID oi <> oUID oj) /\
     (oUID oj = 0%Z -> oUID oi <> (Z.of_nat j + 1)%Z).
Proof.
  intros ND i j oi oj Ei Ej Ni.
  assert (Fi := fix_object_id_nth d i oi Ei). assert (Fj := fix_object_id_nth d j oj Ej).
  destruct (Z.eqb_spec (oUID oi) 0) as [|_]; [contradiction|].
  assert (Inj : forall x y, nth_error (map oUID (dObjects (fix_object_id d))) x = Some y ->
                nth_error (map oUID (dObjects (fix_object_id d))) j = Some y -> x = j).
  { intros x y E1 E2. apply (proj1 (NoDup_nth_error _) ND); [apply nth_error_Some; congruence | congruence]. }
  assert (Mi : nth_error (map oUID (dObjects (fix_object_id d))) i = Some (oUID oi)) by (rewrite nth_error_map, Fi; reflexivity).
  split.
  - intros Nij Nj E. apply Nij. apply (Inj i (oUID oi) Mi). rewrite nth_error_map, Fj.
    destruct (Z.eqb_spec (oUID oj) 0); [contradiction|]. cbn. congruence.
  - intros Zj E. destruct (Nat.eq_dec i j) as [->|Nij]; [congruence|]. apply Nij. apply (Inj i (oUID oi) Mi).
    rewrite nth_error_map, Fj. rewrite Zj; cbn. congruence.
Qed.
End Ids.

Lemma assoc_spec (m : list (Z * Z)) k :
  (forall v, NoDup (map fst m) -> In (k, v) m -> assoc m k = Some v) /\
  (assoc m k = None <-> ~ In k (map fst m)).
Proof.
  induction m as [|[a b] m [IH1 IH2]]; cbn; [split; [intros v _ [] | tauto]|]. split.
  - intros v ND [E|H]; [injection E as -> ->; rewrite Z.eqb_refl; reflexivity|].
    inversion ND as [|? ? NI ND']; subst. destruct (Z.eqb_spec a k) as [->|]; [|apply IH1; assumption].
    exfalso. apply NI. apply (in_map fst) in H. exact H.
  - destruct (Z.eqb_spec a k) as [->|Ne]; [split; [discriminate | intro H; exfalso; apply H; left; reflexivity]|].
    rewrite IH2. split; intro H; [intros [E|I]; [contradiction | exact (H I)] | intro I; apply H; right; exact I].
Qed.
