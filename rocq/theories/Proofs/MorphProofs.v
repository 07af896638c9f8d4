(** Proofs about morph application (mqo/morph_plugin.go). *)
From Coq Require Import String List ZArith Bool Arith Lia.
From Verif.Model Require Import Num Vec Matrix Mqo MqoDoc.
Import ListNotations.

Lemma last_index_some {A} (p : A -> bool) l i : last_index p l = Some i ->
  (exists x, nth_error l i = Some x /\ p x = true) /\
  forall j x, i < j -> nth_error l j = Some x -> p x = false.
Proof.
  revert i; induction l as [|a l IH]; intros i E; cbn in E; [discriminate|].
  destruct (last_index p l) as [i'|] eqn:El.
  - injection E as <-. destruct (IH i' eq_refl) as [[x [Hx Px]] A1]. split; [exists x; auto|].
    intros [|j] y Hj Hy; [lia|]. apply (A1 j); [lia | exact Hy].
  - destruct (p a) eqn:Pa; [|discriminate]. injection E as <-. split; [exists a; auto|].
    intros [|j] y Hj Hy; [lia|]. cbn in Hy.
    clear IH Pa a Hj. revert j Hy El. induction l as [|b l IHl]; intros j Hy El; [destruct j; discriminate|].
    cbn in El. destruct (last_index p l) eqn:El2; [discriminate|]. destruct (p b) eqn:Pb; [discriminate|].
    destruct j as [|j]; cbn in Hy; [injection Hy as <-; exact Pb | exact (IHl j Hy eq_refl)].
Qed.
Lemma last_index_none {A} (p : A -> bool) l : last_index p l = None <-> forall x, In x l -> p x = false.
Proof.
  induction l as [|a l IH]; cbn; [split; [intros _ x []|reflexivity]|].
  destruct (last_index p l) as [i|].
  - split; [discriminate|]. intro H. assert (X : None <> Some i) by discriminate. exfalso.
    assert (Y := proj2 IH (fun x Hx => H x (or_intror Hx))). discriminate.
  - destruct (p a) eqn:Pa.
    + split; [discriminate|]. intro H. rewrite (H a (or_introl eq_refl)) in Pa. discriminate.
    + split; [|reflexivity]. intros _ x [<-|Hx]; [exact Pa | apply (proj1 IH eq_refl); exact Hx].
Qed.
Lemma last_index_ext {A B} (p : A -> bool) (q : B -> bool) l1 l2 :
  Forall2 (fun a b => p a = q b) l1 l2 -> last_index p l1 = last_index q l2.
Proof. intro F; induction F as [|a b l1 l2 E F IH]; [reflexivity|]. cbn. rewrite IH, E. reflexivity. Qed.

Lemma list_upd_nth {A} (l : list A) i f k :
  nth_error (list_upd l i f) k = if Nat.eqb k i then option_map f (nth_error l k) else nth_error l k.
Proof.
  revert i k; induction l as [|a l IH]; intros i k.
  - unfold list_upd. rewrite firstn_nil, skipn_nil. destruct k, (Nat.eqb _ _); reflexivity.
  - destruct i as [|i].
    + destruct k as [|k]; reflexivity.
    + destruct k as [|k]; [reflexivity|]. exact (IH i k).
Qed.
Lemma list_upd_length {A} (l : list A) i f : length (list_upd l i f) = length l.
Proof.
  revert i; induction l as [|a l IH]; intros [|i]; try reflexivity. unfold list_upd in *; cbn.
  rewrite IH; reflexivity.
Qed.

Section Morph.
Context {T : Type} {N : Num T}.
Implicit Types (os : list (object T)).

Lemma shift_verts_length diff (o : object T) : length diff = length (oVerts o) ->
  length (oVerts (shift_verts diff o)) = length (oVerts o).
Proof. intro E. unfold shift_verts; cbn. rewrite map_length, combine_length. lia. Qed.

(** How often object [k] is shifted by the loop. *)
Fixpoint hits (byname : string -> option nat) (base target k i : nat) (ts : list string) : nat :=
  match ts with
  | [] => 0
  | t :: r => (match (if Nat.eqb i target then Some base else byname t) with
               | Some k' => if Nat.eqb k' k then 1 else 0
               | None => 0
               end) + hits byname base target k (S i) r
  end.

Fixpoint rep {A} (n : nat) (f : A -> A) (x : A) : A := match n with O => x | S k => f (rep k f x) end.
Lemma iter_comm {A} (f : A -> A) n x : rep n f (f x) = f (rep n f x).
Proof. induction n; cbn; [reflexivity | rewrite IHn; reflexivity]. Qed.

Lemma morph_loop_nth byname base target n diff : length diff = n -> forall ts i os k,
  nth_error (morph_loop byname base target n diff i ts os) k =
  option_map (fun o => if Nat.eqb (length (oVerts o)) n
                       then rep (hits byname base target k i ts) (shift_verts diff) o else o)
             (nth_error os k).
Proof.
  intros Ld. induction ts as [|t r IH]; intros i os k.
  - cbn. destruct (nth_error os k) as [o|]; cbn; [|reflexivity]. destruct (Nat.eqb _ _); reflexivity.
  - cbn [morph_loop hits]. rewrite IH.
    destruct (if Nat.eqb i target then Some base else byname t) as [k'|]; [|reflexivity].
    destruct (nth_error os k') as [o'|] eqn:Ek'.
    + destruct (Nat.eqb_spec (length (oVerts o')) n) as [El|Nl].
      * rewrite list_upd_nth. destruct (Nat.eqb_spec k k') as [->|Nk].
        -- rewrite Nat.eqb_refl, Ek'. cbn [option_map].
           rewrite shift_verts_length by congruence. rewrite (proj2 (Nat.eqb_eq _ _) El). cbn.
           rewrite iter_comm. reflexivity.
        -- rewrite (proj2 (Nat.eqb_neq k' k)) by congruence. reflexivity.
      * destruct (Nat.eqb_spec k' k) as [->|Nk]; [|reflexivity].
        rewrite Ek'. cbn. rewrite (proj2 (Nat.eqb_neq _ _) Nl). reflexivity.
    + destruct (Nat.eqb_spec k' k) as [->|Nk]; [rewrite Ek'|]; reflexivity.
Qed.

Lemma hits_0 byname base target k ts : forall i,
  (forall j t, nth_error ts j = Some t ->
     (if Nat.eqb (i + j) target then Some base else byname t) <> Some k) ->
  hits byname base target k i ts = 0.
Proof.
  induction ts as [|t r IH]; intros i H; [reflexivity|]. cbn.
  rewrite (IH (S i)). 2:{ intros j t' E. replace (S i + j) with (i + S j) by lia. exact (H (S j) t' E). }
  specialize (H 0 t eq_refl). rewrite Nat.add_0_r in H.
  destruct (if Nat.eqb i target then Some base else byname t) as [k'|]; [|reflexivity].
  destruct (Nat.eqb_spec k' k) as [->|]; [congruence | reflexivity].
Qed.
Lemma hits_1 byname base target k ts : forall i j0 t0,
  nth_error ts j0 = Some t0 ->
  (if Nat.eqb (i + j0) target then Some base else byname t0) = Some k ->
  (forall j t, j <> j0 -> nth_error ts j = Some t ->
     (if Nat.eqb (i + j) target then Some base else byname t) <> Some k) ->
  hits byname base target k i ts = 1.
Proof.
  induction ts as [|t r IH]; intros i j0 t0 E H A; [destruct j0; discriminate|]. cbn.
  destruct j0 as [|j0].
  - cbn in E. injection E as ->. rewrite Nat.add_0_r in H. rewrite H, Nat.eqb_refl.
    rewrite hits_0; [reflexivity|]. intros j t E. replace (S i + j) with (i + S j) by lia.
    apply (A (S j)); [lia | exact E].
  - cbn in E. rewrite (IH (S i) j0 t0 E).
    + assert (B := A 0 t (Nat.neq_0_succ j0) eq_refl). rewrite Nat.add_0_r in B.
      destruct (if Nat.eqb i target then Some base else byname t) as [k'|]; [|reflexivity].
      destruct (Nat.eqb_spec k' k) as [->|]; [congruence | reflexivity].
    + replace (S i + j0) with (i + S j0) by lia. exact H.
    + intros j t' Nj E'. replace (S i + j) with (i + S j) by lia. apply (A (S j)); [lia | exact E'].
Qed.

(** Names, counts and everything but vertex positions are kept. *)
Definition same_shape (o o' : object T) : Prop :=
  set_verts o' (oVerts o) = o /\ length (oVerts o') = length (oVerts o).
Lemma same_shape_refl o : same_shape o o.
Proof. split; [destruct o; reflexivity | reflexivity]. Qed.
Lemma same_shape_name o o' : same_shape o o' -> oName o' = oName o.
Proof. intros [E _]. rewrite <- E. reflexivity. Qed.
Lemma same_shape_trans o1 o2 o3 : same_shape o1 o2 -> same_shape o2 o3 -> same_shape o1 o3.
Proof.
  intros [E1 L1] [E2 L2]. split; [|congruence].
  rewrite <- E1 at 2. rewrite <- E2. destruct o3; reflexivity.
Qed.
Lemma shift_shape diff o : length diff = length (oVerts o) -> same_shape o (shift_verts diff o).
Proof. intro L. split; [destruct o; reflexivity | apply shift_verts_length; exact L]. Qed.
Lemma iter_shape n diff o : length diff = length (oVerts o) -> same_shape o (rep n (shift_verts diff) o).
Proof.
  intro L. induction n as [|n IH]; [apply same_shape_refl|]. cbn.
  eapply same_shape_trans; [exact IH|]. apply shift_shape. destruct IH as [_ L2]. congruence.
Qed.
Definition same_shapes := Forall2 same_shape.
Lemma same_shapes_refl os : same_shapes os os.
Proof. induction os; constructor; [apply same_shape_refl | assumption]. Qed.
Lemma same_shapes_trans os1 os2 os3 : same_shapes os1 os2 -> same_shapes os2 os3 -> same_shapes os1 os3.
Proof.
  intro F; revert os3; induction F; intros os3 G; inversion G; subst; constructor;
    [eapply same_shape_trans; eauto | apply IHF; assumption].
Qed.
Lemma f2_length {A B} (P : A -> B -> Prop) l1 l2 : Forall2 P l1 l2 -> length l1 = length l2.
Proof. intro F; induction F; cbn; congruence. Qed.
Lemma Forall2_nth {A B} (P : A -> B -> Prop) l1 l2 : length l1 = length l2 ->
  (forall k a b, nth_error l1 k = Some a -> nth_error l2 k = Some b -> P a b) -> Forall2 P l1 l2.
Proof.
  revert l2; induction l1 as [|a l1 IH]; intros [|b l2] L H; try discriminate; constructor.
  - apply (H 0); reflexivity.
  - apply IH; [cbn in L; lia|]. intros k; apply (H (S k)).
Qed.
Lemma Forall2_nth_inv {A B} (P : A -> B -> Prop) l1 l2 : Forall2 P l1 l2 ->
  forall k a, nth_error l1 k = Some a -> exists b, nth_error l2 k = Some b /\ P a b.
Proof.
  intro F; induction F; intros [|k] a E; cbn in *; try discriminate; [injection E as <-; eauto | eauto].
Qed.
Lemma byname_shape os os' name : same_shapes os os' -> obj_by_name os' name = obj_by_name os name.
Proof.
  intro F. unfold obj_by_name. symmetry. apply last_index_ext. induction F; constructor; [|assumption].
  rewrite (same_shape_name _ _ H). reflexivity.
Qed.

Lemma morph_loop_length byname base target n diff ts : forall i os,
  length (morph_loop byname base target n diff i ts os) = length os.
Proof.
  induction ts as [|t r IH]; intros i os; [reflexivity|]. cbn. rewrite IH.
  destruct (if Nat.eqb i target then _ else _); [|reflexivity].
  destruct (nth_error os n0); [|reflexivity]. destruct (Nat.eqb _ _); [apply list_upd_length | reflexivity].
Qed.

(** [morph_list_apply] decides on names and counts only. *)
Definition applicable os (m : target_list) (tname : string) : Prop :=
  exists b t bo to_, obj_by_name os (tlBase m) = Some b /\ obj_by_name os tname = Some t /\
    nth_error os b = Some bo /\ nth_error os t = Some to_ /\ length (oVerts bo) = length (oVerts to_).

Lemma apply_cases os m target v tname : nth_error (tlTargets m) target = Some tname ->
  (exists b t bo to_ os', obj_by_name os (tlBase m) = Some b /\ obj_by_name os tname = Some t /\
     nth_error os b = Some bo /\ nth_error os t = Some to_ /\ length (oVerts bo) = length (oVerts to_) /\
     morph_list_apply os m target v = Some (os', true) /\ length os' = length os /\
     forall k, nth_error os' k =
       option_map (fun o => if Nat.eqb (length (oVerts o)) (length (oVerts bo))
         then rep (hits (obj_by_name os) b target k 0 (tlTargets m))
                (shift_verts (map (fun p => v3scale (v3sub (fst p) (snd p)) v) (combine (oVerts to_) (oVerts bo)))) o
         else o) (nth_error os k)) \/
  (~ applicable os m tname /\ morph_list_apply os m target v = Some (os, false)).
Proof.
  intro Et. unfold morph_list_apply, applicable. rewrite Et.
  destruct (obj_by_name os (tlBase m)) as [b|] eqn:Eb.
  2:{ right. split; [|reflexivity]. intros [b' [t' [bo [to_ [X _]]]]]; discriminate. }
  destruct (obj_by_name os tname) as [t|] eqn:En.
  2:{ right. split; [|reflexivity]. intros [b' [t' [bo [to_ [_ [X _]]]]]]; discriminate. }
  destruct (nth_error os b) as [bo|] eqn:Ebo.
  2:{ right. split; [|reflexivity]. intros [b' [t' [bo [to_ [X [_ [Y _]]]]]]]. congruence. }
  destruct (nth_error os t) as [to_|] eqn:Eto.
  2:{ right. split; [|reflexivity]. intros [b' [t' [bo' [to' [_ [X [_ [Y _]]]]]]]]. congruence. }
  destruct (Nat.eqb_spec (length (oVerts bo)) (length (oVerts to_))) as [El|Nl].
  - left. exists b, t, bo, to_. eexists. repeat (split; [first [reflexivity | assumption | eassumption]|]).
    split; [apply morph_loop_length|]. intro k. rewrite El. rewrite morph_loop_nth; [reflexivity|].
    rewrite map_length, combine_length. lia.
  - right. split; [|reflexivity].
    intros [b' [t' [bo' [to' [X1 [X2 [X3 [X4 X5]]]]]]]]. injection X1 as <-. injection X2 as <-. congruence.
Qed.

Lemma applicable_shape os os' m tname : same_shapes os os' -> applicable os m tname <-> applicable os' m tname.
Proof.
  intro F. split; intros [b [t [bo [to_ [E1 [E2 [E3 [E4 E5]]]]]]]].
  - destruct (Forall2_nth_inv _ _ _ F _ _ E3) as [bo' [E3' [_ L3]]].
    destruct (Forall2_nth_inv _ _ _ F _ _ E4) as [to' [E4' [_ L4]]].
    exists b, t, bo', to'. rewrite !(byname_shape _ _ _ F). repeat split; try assumption. congruence.
  - assert (Fl : forall k x, nth_error os' k = Some x -> exists y, nth_error os k = Some y /\ same_shape y x).
    { intros k x Ex. destruct (nth_error os k) as [y|] eqn:Ey.
      - destruct (Forall2_nth_inv _ _ _ F _ _ Ey) as [x' [Ex' S]]. exists y. split; [reflexivity | congruence].
      - apply nth_error_None in Ey. assert (k < length os') by (apply nth_error_Some; congruence).
        assert (length os = length os') by (eapply f2_length; exact F). lia. }
    destruct (Fl _ _ E3) as [bo' [E3' [_ L3]]]. destruct (Fl _ _ E4) as [to' [E4' [_ L4]]].
    exists b, t, bo', to'. rewrite (byname_shape _ _ _ F) in E1; rewrite (byname_shape _ _ _ F) in E2. repeat split; try assumption. congruence.
Qed.

Lemma apply_shape os m target v os' u : morph_list_apply os m target v = Some (os', u) -> same_shapes os os'.
Proof.
  intro E. destruct (nth_error (tlTargets m) target) as [tname|] eqn:Et.
  2:{ unfold morph_list_apply in E. rewrite Et in E. discriminate. }
  destruct (apply_cases os m target v tname Et) as [[b [t [bo [to_ [os2 [_ [_ [_ [_ [El [E2 [L A]]]]]]]]]]]] | [_ E2]].
  - rewrite E2 in E. injection E as <- <-. apply Forall2_nth; [congruence|].
    intros k o o' Eo Eo'. rewrite A, Eo in Eo'. cbn in Eo'. injection Eo' as <-.
    destruct (Nat.eqb_spec (length (oVerts o)) (length (oVerts bo))) as [Eq|_]; [|apply same_shape_refl].
    apply iter_shape. rewrite map_length, combine_length. lia.
  - rewrite E2 in E. injection E as <- <-. apply same_shapes_refl.
Qed.

(** Objects the list does not refer to are untouched. *)
Lemma apply_other os m target v os' u k o : morph_list_apply os m target v = Some (os', u) ->
  nth_error os k = Some o -> oName o <> tlBase m -> ~ In (oName o) (tlTargets m) ->
  nth_error os' k = Some o.
Proof.
  intros E Eo Nb Nt. destruct (nth_error (tlTargets m) target) as [tname|] eqn:Et.
  2:{ unfold morph_list_apply in E. rewrite Et in E. discriminate. }
  destruct (apply_cases os m target v tname Et) as [[b [t [bo [to_ [os2 [Eb [_ [_ [_ [_ [E2 [_ A]]]]]]]]]]]] | [_ E2]];
    rewrite E2 in E; injection E as <- <-; [|exact Eo].
  rewrite A, Eo. cbn. rewrite hits_0; [destruct (Nat.eqb _ _); reflexivity|].
  intros j t' Ej. cbn.
  assert (Q : forall nm, obj_by_name os nm = Some k -> nm = oName o).
  { intros nm En. apply last_index_some in En. destruct En as [[x [Ex Px]] _].
    apply String.eqb_eq in Px. congruence. }
  destruct (Nat.eqb j target).
  - intro C. injection C as ->. apply Nb. symmetry. apply Q. exact Eb.
  - intro C. apply Q in C. subst t'. apply Nt. eapply nth_error_In; exact Ej.
Qed.

(** ** All lists *)
Lemma targets_total m name v ts : forall i os u0,
  (forall j t, nth_error ts j = Some t -> nth_error (tlTargets m) (i + j) = Some t) ->
  exists os' u, morph_targets os m name v i ts u0 = Some (os', u) /\ same_shapes os os' /\
    (u = true <-> u0 = true \/ (In name ts /\ applicable os m name)) /\
    (forall k o, nth_error os k = Some o ->
       (In name ts -> oName o <> tlBase m /\ ~ In (oName o) (tlTargets m)) -> nth_error os' k = Some o).
Proof.
  induction ts as [|t r IH]; intros i os u0 H.
  - exists os, u0. split; [reflexivity|]. split; [apply same_shapes_refl|]. split; [|auto].
    split; [auto|]. intros [X|[[] _]]; exact X.
  - cbn [morph_targets].
    assert (H0 := H 0 t eq_refl). rewrite Nat.add_0_r in H0.
    assert (HS : forall j t', nth_error r j = Some t' -> nth_error (tlTargets m) (S i + j) = Some t').
    { intros j t' E. replace (S i + j) with (i + S j) by lia. exact (H (S j) t' E). }
    destruct (String.eqb_spec t name) as [->|Ne].
    + assert (Ap : exists os1 u1, morph_list_apply os m i v = Some (os1, u1) /\ (u1 = true <-> applicable os m name)).
      { destruct (apply_cases os m i v name H0) as [[b [t' [bo [to_ [os2 [E1 [E2 [E3 [E4 [E5 [E6 _]]]]]]]]]]] | [NA E]].
        - exists os2, true. split; [exact E6|]. split; [|auto]. intros _. exists b, t', bo, to_. auto.
        - exists os, false. split; [exact E|]. split; [discriminate|]. intro C; contradiction. }
      destruct Ap as [os1 [u1 [E1 U1]]]. rewrite E1.
      assert (S1 := apply_shape _ _ _ _ _ _ E1).
      destruct (IH (S i) os1 (u1 || u0) HS) as [os' [u [E [S2 [U K]]]]].
      exists os', u. split; [exact E|]. split; [eapply same_shapes_trans; eauto|]. split.
      * rewrite U. rewrite orb_true_iff, U1. rewrite <- (applicable_shape _ _ m name S1). cbn. tauto.
      * intros k o Eo Hn. apply K; [|intro; apply Hn; left; reflexivity].
        destruct (Hn (or_introl eq_refl)) as [A B]. eapply apply_other; eauto.
    + destruct (IH (S i) os u0 HS) as [os' [u [E [S2 [U K]]]]].
      exists os', u. split; [exact E|]. split; [exact S2|]. split.
      * rewrite U. cbn. split; [intros [X|[X Y]]; auto|]. intros [X|[[X|X] Y]]; auto; congruence.
      * intros k o Eo Hn. apply K; [exact Eo|]. intro X; apply Hn; right; exact X.
Qed.

Lemma lists_total ms name v : forall os u0, exists os' u,
  morph_lists os ms name v u0 = Some (os', u) /\ same_shapes os os' /\
  (u = true <-> u0 = true \/ exists m, In m ms /\ In name (tlTargets m) /\ applicable os m name) /\
  (forall k o, nth_error os k = Some o ->
     (forall m, In m ms -> In name (tlTargets m) -> oName o <> tlBase m /\ ~ In (oName o) (tlTargets m)) ->
     nth_error os' k = Some o).
Proof.
  induction ms as [|m ms IH]; intros os u0.
  - exists os, u0. split; [reflexivity|]. split; [apply same_shapes_refl|]. split; [|auto].
    split; [auto|]. intros [X|[m [[] _]]]; exact X.
  - cbn [morph_lists].
    destruct (targets_total m name v (tlTargets m) 0 os u0 (fun j t E => E)) as [os1 [u1 [E1 [S1 [U1 K1]]]]].
    rewrite E1. destruct (IH os1 u1) as [os' [u [E [S2 [U K]]]]].
    exists os', u. split; [exact E|]. split; [eapply same_shapes_trans; eauto|]. split.
    + rewrite U, U1. split.
      * intros [[X|[X Y]]|[m' [X [Y Z]]]]; [auto | right; exists m; cbn; auto|].
        right. exists m'. split; [right; exact X|]. split; [exact Y|].
        apply (applicable_shape _ _ m' name S1). exact Z.
      * intros [X|[m' [[<-|X] [Y Z]]]]; [auto | auto|].
        right. exists m'. split; [exact X|]. split; [exact Y|]. apply (applicable_shape _ _ m' name S1). exact Z.
    + intros k o Eo Hn. apply K; [apply K1; [exact Eo|]|].
      * intro X. apply Hn; [left; reflexivity | exact X].
      * intros m' Hm' X. apply Hn; [right; exact Hm' | exact X].
Qed.

(** The only list and slot with the name: [morph_lists] is [morph_list_apply]. *)
Lemma targets_none m name v ts : forall i os u, ~ In name ts -> morph_targets os m name v i ts u = Some (os, u).
Proof.
  induction ts as [|t r IH]; intros i os u H; [reflexivity|]. cbn.
  destruct (String.eqb_spec t name) as [->|]; [exfalso; apply H; left; reflexivity|].
  apply IH. intro; apply H; right; assumption.
Qed.
Lemma lists_none ms name v : forall os u, (forall m, In m ms -> ~ In name (tlTargets m)) ->
  morph_lists os ms name v u = Some (os, u).
Proof.
  induction ms as [|m ms IH]; intros os u H; [reflexivity|]. cbn.
  rewrite targets_none by (apply H; left; reflexivity). apply IH. intros; apply H; right; assumption.
Qed.
Lemma targets_one m name v ts1 ts2 i os u :
  ~ In name ts1 -> ~ In name ts2 ->
  morph_targets os m name v i (ts1 ++ name :: ts2) u =
  option_map (fun p => (fst p, snd p || u)) (morph_list_apply os m (i + length ts1) v).
Proof.
  revert i os; induction ts1 as [|t r IH]; intros i os H1 H2.
  - cbn. rewrite String.eqb_refl, Nat.add_0_r.
    destruct (morph_list_apply os m i v) as [[os' u']|]; [|reflexivity]. cbn. apply targets_none; exact H2.
  - cbn. destruct (String.eqb_spec t name) as [->|]; [exfalso; apply H1; left; reflexivity|].
    rewrite IH; [|intro; apply H1; right; assumption | exact H2]. replace (S i + length r) with (i + S (length r)) by lia.
    reflexivity.
Qed.
Lemma lists_one ms1 m ms2 name v ts1 ts2 os :
  (forall m', In m' (ms1 ++ ms2) -> ~ In name (tlTargets m')) ->
  tlTargets m = ts1 ++ name :: ts2 -> ~ In name ts1 -> ~ In name ts2 ->
  morph_lists os (ms1 ++ m :: ms2) name v false = morph_list_apply os m (length ts1) v.
Proof.
  intros H Et H1 H2. revert os. induction ms1 as [|x ms1 IH]; intro os.
  - cbn. rewrite Et, targets_one by assumption. cbn.
    destruct (morph_list_apply os m (length ts1) v) as [[os' u]|]; [|reflexivity]. cbn.
    rewrite orb_false_r. apply lists_none. intros; apply H; assumption.
  - cbn. rewrite targets_none by (apply H; left; reflexivity). apply IH. intros; apply H; right; assumption.
Qed.

(** ** Material morphs *)
Lemma mat_loop_names names pre v is_ : forall ms ms',
  material_morph_loop names pre v is_ ms = Some ms' -> map mtName ms' = map mtName ms.
Proof.
  induction is_ as [|i r IH]; intros ms ms' E; cbn in E; [injection E as <-; reflexivity|].
  destruct (nth_error ms i) as [m|]; [|discriminate].
  destruct (strip_prefix pre (mtName m)) as [tn|]; [|apply IH; exact E].
  destruct (mat_by_name names tn) as [k|]; [|discriminate].
  rewrite (IH _ _ E). clear. unfold list_upd. rewrite map_app.
  rewrite <- (firstn_skipn k ms) at 3. rewrite map_app. f_equal.
  destruct (skipn k ms); reflexivity.
Qed.
Lemma upd_names k f (ms : list (material T)) : (forall x, mtName (f x) = mtName x) ->
  map mtName (list_upd ms k f) = map mtName ms.
Proof.
  intro F. unfold list_upd. rewrite map_app.
  rewrite <- (firstn_skipn k ms) at 3. rewrite map_app. f_equal.
  destruct (skipn k ms); [reflexivity|]. cbn. rewrite F. reflexivity.
Qed.

Definition dangling (names : list string) (pre : string) (n : string) : Prop :=
  exists tn, strip_prefix pre n = Some tn /\ ~ In tn names.
Lemma mat_by_name_none names n : mat_by_name names n = None <-> ~ In n names.
Proof.
  unfold mat_by_name. rewrite last_index_none. split.
  - intros H I. specialize (H n I). rewrite String.eqb_refl in H. discriminate.
  - intros H x I. destruct (String.eqb_spec x n) as [->|]; [contradiction | reflexivity].
Qed.
Lemma mat_loop_none names pre v is_ : forall ms,
  (forall i, In i is_ -> i < length ms) ->
  material_morph_loop names pre v is_ ms = None <->
  exists i n, In i is_ /\ nth_error (map mtName ms) i = Some n /\ dangling names pre n.
Proof.
  induction is_ as [|i r IH]; intros ms B; cbn.
  - split; [discriminate|]. intros [i [n [[] _]]].
  - destruct (nth_error ms i) as [m|] eqn:Em.
    2:{ apply nth_error_None in Em. specialize (B i (or_introl eq_refl)). lia. }
    assert (B' : forall j, In j r -> j < length ms) by (intros; apply B; right; assumption).
    assert (En : nth_error (map mtName ms) i = Some (mtName m)) by (rewrite nth_error_map, Em; reflexivity).
    destruct (strip_prefix pre (mtName m)) as [tn|] eqn:Es.
    + destruct (mat_by_name names tn) as [k|] eqn:Ek.
      * rewrite IH by (intros j Hj; rewrite list_upd_length; auto).
        rewrite upd_names by reflexivity.
        split; intros [j [n [A [C D]]]]; [exists j, n; auto|]. destruct A as [<-|A]; [|exists j, n; auto].
        exfalso. rewrite En in C. injection C as <-. destruct D as [tn' [D1 D2]].
        rewrite Es in D1. injection D1 as <-. apply mat_by_name_none in D2. congruence.
      * split; [|reflexivity]. intros _. exists i, (mtName m). split; [left; reflexivity|]. split; [exact En|].
        exists tn. split; [exact Es | apply mat_by_name_none; exact Ek].
    + rewrite IH by assumption. split; intros [j [n [A [C D]]]]; [exists j, n; auto|].
      destruct A as [<-|A]; [|exists j, n; auto].
      exfalso. rewrite En in C. injection C as <-. destruct D as [tn' [D1 _]]. congruence.
Qed.
Lemma material_morph_none (ms : list (material T)) name v : apply_material_morph ms name v = None <->
  exists m, In m ms /\ dangling (map mtName ms) (morph_prefix name) (mtName m).
Proof.
  unfold apply_material_morph. rewrite mat_loop_none by (intros i Hi; apply in_seq in Hi; lia). split.
  - intros [i [n [_ [E D]]]]. rewrite nth_error_map in E. destruct (nth_error ms i) as [m|] eqn:Em; [|discriminate].
    injection E as <-. exists m. split; [eapply nth_error_In; exact Em | exact D].
  - intros [m [I D]]. apply In_nth_error in I. destruct I as [i E]. exists i, (mtName m).
    split; [apply in_seq; split; [lia|]; apply nth_error_Some; congruence|].
    split; [rewrite nth_error_map, E; reflexivity | exact D].
Qed.
Lemma strip_append p s : strip_prefix p (p ++ s) = Some s.
Proof.
  unfold strip_prefix.
  assert (P : String.prefix p (p ++ s) = true).
  { induction p; [destruct s; reflexivity|]. cbn. destruct (Ascii.ascii_dec a a); [exact IHp | congruence]. }
  rewrite P. f_equal.
  assert (L : String.length (p ++ s) - String.length p = String.length s).
  { clear P. induction p; cbn; lia. }
  rewrite L. clear. induction p; cbn; [|exact IHp]. induction s; cbn; [reflexivity | rewrite IHs; reflexivity].
Qed.
Lemma strip_some p n s : strip_prefix p n = Some s -> n = (p ++ s)%string.
Proof.
  unfold strip_prefix. destruct (String.prefix p n) eqn:P; [|discriminate]. intro E; injection E as <-.
  revert n P. induction p as [|a p IH]; intros n P.
  - cbn. rewrite Nat.sub_0_r. clear. induction n; cbn; [reflexivity | rewrite <- IHn; reflexivity].
  - destruct n as [|b n]; [discriminate|]. cbn in P. destruct (Ascii.ascii_dec a b) as [->|]; [|discriminate].
    cbn. f_equal. apply IH. exact P.
Qed.
End Morph.
