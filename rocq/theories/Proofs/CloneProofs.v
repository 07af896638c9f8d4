(** Proofs about [Object.Clone]: what is copied, and that the copy is separate. *)
From Coq Require Import List ZArith Arith Lia.
From Verif.Model Require Import Num Vec MqoClone.
From Verif.Spec Require Import HeapSpec.
Import ListNotations.

Section Clone.
Context {T : Type}.
Implicit Types (h : heap T) (P : nat -> Prop).

(** ** Heap primitives *)
Lemma nth_alloc h c a : a < length h -> nth_error (h ++ [c]) a = nth_error h a.
Proof. intro L. apply nth_error_app1; exact L. Qed.
Lemma nth_alloc_new h c : nth_error (h ++ [c]) (length h) = Some c.
Proof. rewrite nth_error_app2, Nat.sub_diag by lia. reflexivity. Qed.
Lemma store_length h a c : a < length h -> length (store h a c) = length h.
Proof. intro L. unfold store. rewrite app_length, firstn_length. cbn [length]. rewrite skipn_length. lia. Qed.
Lemma store_nth h a c b : a < length h ->
  nth_error (store h a c) b = if Nat.eqb b a then Some c else nth_error h b.
Proof.
  revert a b; induction h as [|x h IH]; intros a b L; [cbn in L; lia|].
  destruct a as [|a]; destruct b as [|b]; try reflexivity. cbn in L. exact (IH a b (proj2 (Nat.succ_lt_mono _ _) L)).
Qed.

Lemma closed_bound P h a : closed P h -> P a -> a < length h.
Proof. intros C H. destruct (C a H) as [c [E _]]. apply nth_error_Some. congruence. Qed.

Lemma cell_ok_mono P P' h h' c : cell_ok P h c -> (forall a, P a -> P' a) ->
  (forall a k, P a -> has_kind h a k -> has_kind h' a k) -> cell_ok P' h' c.
Proof.
  intros H M K. destruct c; cbn in *; try exact I.
  - eapply Forall_impl; [|exact H]. intros [b|]; [|auto]. intros [A B]; split; [apply M; exact A | apply K; assumption].
  - eapply Forall_impl; [|exact H]. intros [b|]; [|auto]. intros [A B]; split; [apply M; exact A | apply K; assumption].
  - destruct H as [[A1 B1] [[A2 B2] [A3 B3]]]. repeat split; auto.
Qed.

Lemma kind_alloc h c a k : has_kind h a k -> has_kind (h ++ [c]) a k.
Proof.
  intros [x [E K]]. exists x. split; [|exact K]. rewrite nth_alloc; [exact E|]. apply nth_error_Some; congruence.
Qed.
Lemma kind_store h a c b k : has_kind h a (kind c) -> has_kind h b k -> has_kind (store h a c) b k.
Proof.
  intros [x [Ex Kx]] [y [Ey Ky]].
  assert (L : a < length h) by (apply nth_error_Some; congruence).
  unfold has_kind. rewrite store_nth by exact L. destruct (Nat.eqb_spec b a) as [->|]; [|eauto].
  exists c. split; [reflexivity | congruence].
Qed.

Definition plus P (n m : nat) : nat -> Prop := fun a => P a \/ n <= a < m.
Lemma closed_alloc P h c : closed P h -> cell_ok P h c ->
  closed (plus P (length h) (S (length h))) (h ++ [c]).
Proof.
  intros C H a [Pa|Ea].
  - destruct (C a Pa) as [x [E K]]. exists x. split; [rewrite nth_alloc; [exact E | apply nth_error_Some; congruence]|].
    eapply cell_ok_mono; [exact K | intros b B; left; exact B | intros b k _; apply kind_alloc].
  - assert (a = length h) as -> by lia. exists c. split; [apply nth_alloc_new|].
    eapply cell_ok_mono; [exact H | intros b B; left; exact B | intros b k _; apply kind_alloc].
Qed.
Lemma closed_store P h a c : closed P h -> P a -> has_kind h a (kind c) -> cell_ok P h c -> closed P (store h a c).
Proof.
  intros C Pa K H b Pb. assert (L := closed_bound P h a C Pa). rewrite store_nth by exact L.
  destruct (Nat.eqb_spec b a) as [->|].
  - exists c. split; [reflexivity|]. eapply cell_ok_mono; [exact H | auto | intros d k _; apply kind_store; exact K].
  - destruct (C b Pb) as [x [E Kx]]. exists x. split; [exact E|].
    eapply cell_ok_mono; [exact Kx | auto | intros d k _; apply kind_store; exact K].
Qed.

(** ** Frame: an edit touches only what the object owns *)
Lemma set_nth_forall {A} (Q : A -> Prop) l i x l' : set_nth l i x = Some l' -> Q x -> Forall Q l -> Forall Q l'.
Proof.
  unfold set_nth. destruct (i <? length l); [|discriminate]. intro E; injection E as <-. intros Qx F.
  rewrite <- (firstn_skipn i l) in F. apply Forall_app in F. destruct F as [F1 F2].
  apply Forall_app. split; [exact F1 | constructor; [exact Qx|]].
  clear F1. revert i F2. induction l as [|y l IH]; intros [|i] F2; cbn in *; auto.
  - inversion F2; assumption.
Qed.

Definition frame P h h' := length h <= length h' /\ (forall a, a < length h -> ~ P a -> nth_error h' a = nth_error h a) /\
  (forall a k, has_kind h a k -> has_kind h' a k).

Lemma frame_store P h a c : P a -> has_kind h a (kind c) -> frame P h (store h a c).
Proof.
  intros Pa K. assert (L : a < length h) by (destruct K as [x [E _]]; apply nth_error_Some; congruence).
  split; [rewrite store_length by exact L; lia|]. split.
  - intros b Lb N. rewrite store_nth by exact L. destruct (Nat.eqb_spec b a) as [->|]; [contradiction | reflexivity].
  - intros b k. apply kind_store; exact K.
Qed.
Lemma frame_alloc_store P h c a c' : P a -> has_kind h a (kind c') -> frame P h (store (h ++ [c]) a c').
Proof.
  intros Pa K. assert (L : a < length h) by (destruct K as [x [E _]]; apply nth_error_Some; congruence).
  assert (L2 : a < length (h ++ [c])) by (rewrite app_length; lia).
  split; [rewrite store_length by exact L2; rewrite app_length; lia|]. split.
  - intros b Lb N. rewrite store_nth by exact L2. destruct (Nat.eqb_spec b a) as [->|]; [contradiction|].
    apply nth_alloc; exact Lb.
  - intros b k Hk. apply kind_store; apply kind_alloc; assumption.
Qed.

Lemma owns_frame P h h' (o : hobj) : owns P h o -> frame P h h' ->
  closed (plus P (length h) (length h')) h' -> owns (plus P (length h) (length h')) h' o.
Proof.
  intros [C [[A1 B1] [A2 B2]]] [L [F K]] C'. split; [exact C'|].
  split; split; try (left; assumption); apply K; assumption.
Qed.
Lemma closed_plus_same P n h : closed P h -> closed (plus P n n) h.
Proof.
  intros C a [Pa|B]; [|lia]. destruct (C a Pa) as [c [E K]]. exists c. split; [exact E|].
  eapply cell_ok_mono; [exact K | intros b Hb; left; exact Hb | auto].
Qed.

Lemma edit_frame P h o e h' : owns P h o -> apply_edit h o e = Some h' ->
  frame P h h' /\ owns (plus P (length h) (length h')) h' o.
Proof.
  intros O E. assert (O' := O). destruct O' as [C [[Pv Kv] [Pf Kf]]].
  assert (Fin1 : forall a c, P a -> has_kind h a (kind c) -> cell_ok P h c -> h' = store h a c ->
            frame P h h' /\ owns (plus P (length h) (length h')) h' o).
  { intros a c Pa Ka Kc ->. assert (Fr := frame_store P h a c Pa Ka). split; [exact Fr|].
    apply owns_frame; [exact O | exact Fr|]. rewrite store_length by (eapply closed_bound; eauto).
    apply closed_plus_same. apply closed_store; assumption. }
  assert (Fin2 : forall v a c', P a -> has_kind h a (kind c') ->
            cell_ok (plus P (length h) (S (length h))) (h ++ [CVec v]) c' -> h' = store (h ++ [CVec v]) a c' ->
            frame P h h' /\ owns (plus P (length h) (length h')) h' o).
  { intros v a c' Pa Ka Kc ->. assert (Fr := frame_alloc_store P h (CVec v) a c' Pa Ka). split; [exact Fr|].
    assert (L : a < length h) by (eapply closed_bound; eauto).
    apply owns_frame; [exact O | exact Fr|].
    rewrite store_length by (rewrite app_length; lia). rewrite app_length; cbn [length]. rewrite Nat.add_1_r.
    apply closed_store; [apply closed_alloc; [exact C | exact I] | left; exact Pa | apply kind_alloc; exact Ka | exact Kc]. }
  (* the face an edit goes to *)
  assert (Face : forall f p, nth_ptr (fptrs_at h (hFaces o)) f = Some p -> P p /\ has_kind h p 5 /\
            forall u vs m us ns, nth_error h p = Some (CFace u vs m us ns) ->
              (P vs /\ has_kind h vs 3) /\ (P us /\ has_kind h us 4) /\ (P ns /\ has_kind h ns 1)).
  { intros f p Ep. unfold nth_ptr, fptrs_at in Ep. destruct (C _ Pf) as [c [Ec Kc]]. rewrite Ec in Ep.
    destruct c; try discriminate. destruct (nth_error l f) as [[q|]|] eqn:Eq; try discriminate. injection Ep as ->.
    cbn in Kc. rewrite Forall_forall in Kc. specialize (Kc _ (nth_error_In _ _ Eq)). destruct Kc as [Pp Kp].
    split; [exact Pp|]. split; [exact Kp|]. intros u vs m us ns Ef.
    destruct (C p Pp) as [c' [Ec' Kc']]. rewrite Ef in Ec'. injection Ec' as <-. exact Kc'. }
  assert (NewPtr : forall l i l' v, vptrs_at h (hVerts o) = Some l \/ (exists a, P a /\ vptrs_at h a = Some l) ->
            set_nth l i (Some (length h)) = Some l' ->
            cell_ok (plus P (length h) (S (length h))) (h ++ [CVec v]) (CVPtrs l')).
  { intros l i l' v Hl Es. assert (Hl' : exists a, P a /\ vptrs_at h a = Some l).
    { destruct Hl as [Hl|Hl]; [exists (hVerts o); auto | exact Hl]. }
    destruct Hl' as [a [Pa Ea]]. cbn. eapply set_nth_forall; [exact Es| |].
    - split; [right; lia|]. exists (CVec v). split; [apply nth_alloc_new | reflexivity].
    - unfold vptrs_at in Ea. destruct (C a Pa) as [c [Ec Kc]]. rewrite Ec in Ea. destruct c; try discriminate.
      injection Ea as ->. cbn in Kc. eapply Forall_impl; [|exact Kc]. intros [b|]; [|auto].
      intros [A B]. split; [left; exact A | apply kind_alloc; exact B]. }
  destruct e as [i v|i v|f k x|f k u|f m|f k n]; cbn [apply_edit alloc] in E.
  - destruct (nth_ptr (vptrs_at h (hVerts o)) i) as [p|] eqn:Ep; [|discriminate].
    unfold nth_ptr, vptrs_at in Ep. destruct (C _ Pv) as [c [Ec Kc]]. rewrite Ec in Ep.
    destruct c; try discriminate. destruct (nth_error l i) as [[q|]|] eqn:Eq; try discriminate. injection Ep as ->.
    cbn in Kc. rewrite Forall_forall in Kc. specialize (Kc _ (nth_error_In _ _ Eq)). destruct Kc as [Pp Kp].
    destruct (nth_error h p) as [[w| | | | | |]|] eqn:Ew; try discriminate. injection E as E.
    apply (Fin1 p (CVec v)); [exact Pp | exact Kp | exact I | congruence].
  - destruct (vptrs_at h (hVerts o)) as [l|] eqn:El; [|discriminate].
    destruct (set_nth l i (Some (length h))) as [l'|] eqn:Es; [|discriminate]. injection E as E.
    apply (Fin2 v (hVerts o) (CVPtrs l')); [exact Pv | exact Kv | eapply NewPtr; [left; reflexivity | exact Es] | congruence].
  - destruct (nth_ptr (fptrs_at h (hFaces o)) f) as [p|] eqn:Ep; [|discriminate].
    destruct (Face f p Ep) as [Pp [Kp Ff]].
    destruct (nth_error h p) as [[| | | | |u vs m us ns|]|] eqn:Ef; try discriminate.
    destruct (Ff _ _ _ _ _ eq_refl) as [[A B] _].
    destruct (nth_error h vs) as [[| | |l| | |]|] eqn:El; try discriminate.
    destruct (set_nth l k x) as [l'|]; [|discriminate]. injection E as E.
    apply (Fin1 vs (CInts l')); [exact A | exact B | exact I | congruence].
  - destruct (nth_ptr (fptrs_at h (hFaces o)) f) as [p|] eqn:Ep; [|discriminate].
    destruct (Face f p Ep) as [Pp [Kp Ff]].
    destruct (nth_error h p) as [[| | | | |uu vs m us ns|]|] eqn:Ef; try discriminate.
    destruct (Ff _ _ _ _ _ eq_refl) as [_ [[A B] _]].
    destruct (nth_error h us) as [[| | | |l| |]|] eqn:El; try discriminate.
    destruct (set_nth l k u) as [l'|]; [|discriminate]. injection E as E.
    apply (Fin1 us (CUVs l')); [exact A | exact B | exact I | congruence].
  - destruct (nth_ptr (fptrs_at h (hFaces o)) f) as [p|] eqn:Ep; [|discriminate].
    destruct (Face f p Ep) as [Pp [Kp Ff]].
    destruct (nth_error h p) as [[| | | | |uu vs m0 us ns|]|] eqn:Ef; try discriminate.
    injection E as E.
    apply (Fin1 p (CFace uu vs m us ns)); [exact Pp | exact Kp | exact (Ff _ _ _ _ _ eq_refl) | congruence].
  - destruct (nth_ptr (fptrs_at h (hFaces o)) f) as [p|] eqn:Ep; [|discriminate].
    destruct (Face f p Ep) as [Pp [Kp Ff]].
    destruct (nth_error h p) as [[| | | | |uu vs m us ns|]|] eqn:Ef; try discriminate.
    destruct (Ff _ _ _ _ _ eq_refl) as [_ [_ [A B]]].
    destruct (vptrs_at h ns) as [l|] eqn:El; [|discriminate].
    destruct (set_nth l k (Some (length h))) as [l'|] eqn:Es; [|discriminate]. injection E as E.
    apply (Fin2 n ns (CVPtrs l')); [exact A | exact B | eapply NewPtr; [right; eauto | exact Es] | congruence].
Qed.

(** ** The view depends on the owned cells only *)
Lemma read_all_ext {A B} (g g' : A -> option B) l : (forall x, In x l -> g x = g' x) -> read_all g l = read_all g' l.
Proof.
  induction l as [|x l IH]; intro H; [reflexivity|]. cbn. rewrite (H x (or_introl eq_refl)).
  rewrite IH; [reflexivity|]. intros; apply H; right; assumption.
Qed.
Lemma view_frame P h h' o : owns P h o -> (forall a, P a -> nth_error h' a = nth_error h a) -> view h' o = view h o.
Proof.
  intros [C [[Pv _] [Pf _]]] S.
  assert (Vec : forall b, P b -> read_vec h' b = read_vec h b) by (intros b Pb; unfold read_vec; rewrite S by exact Pb; reflexivity).
  assert (VP : forall a l, P a -> vptrs_at h a = Some l -> forall p, In p l -> match p with None => True | Some b => P b end).
  { intros a l Pa E p Hp. unfold vptrs_at in E. destruct (C a Pa) as [c [Ec Kc]]. rewrite Ec in E.
    destruct c; try discriminate. injection E as ->. cbn in Kc. rewrite Forall_forall in Kc.
    specialize (Kc p Hp). destruct p; [exact (proj1 Kc) | exact I]. }
  assert (V1 : vptrs_at h' (hVerts o) = vptrs_at h (hVerts o)) by (unfold vptrs_at; rewrite S by exact Pv; reflexivity).
  assert (V2 : fptrs_at h' (hFaces o) = fptrs_at h (hFaces o)) by (unfold fptrs_at; rewrite S by exact Pf; reflexivity).
  unfold view. rewrite V1, V2.
  destruct (vptrs_at h (hVerts o)) as [vs|] eqn:Ev; [|reflexivity].
  destruct (fptrs_at h (hFaces o)) as [fs|] eqn:Ef; [|reflexivity].
  rewrite (read_all_ext (read_vertex h') (read_vertex h) vs).
  2:{ intros p Hp. assert (X := VP _ _ Pv Ev p Hp). destruct p as [b|]; [|reflexivity]. cbn. apply Vec; exact X. }
  rewrite (read_all_ext (read_face h') (read_face h) fs); [reflexivity|].
  intros p Hp. destruct p as [a|]; [|reflexivity]. cbn.
  assert (Pa : P a /\ has_kind h a 5).
  { unfold fptrs_at in Ef. destruct (C _ Pf) as [c [Ec Kc]]. rewrite Ec in Ef. destruct c; try discriminate.
    injection Ef as ->. cbn in Kc. rewrite Forall_forall in Kc. exact (Kc (Some a) Hp). }
  destruct Pa as [Pa _]. rewrite (S a Pa). destruct (C a Pa) as [c [Ec Kc]]. rewrite Ec.
  destruct c as [| | | | |u vv m us ns|]; try reflexivity. cbn in Kc. destruct Kc as [[A1 _] [[A2 _] [A3 _]]].
  unfold vptrs_at. rewrite (S _ A1), (S _ A2), (S _ A3). fold (vptrs_at h ns).
  destruct (nth_error h vv) as [[| | |vl| | |]|]; try reflexivity.
  destruct (nth_error h us) as [[| | | |ul| |]|]; try reflexivity.
  destruct (vptrs_at h ns) as [nl|] eqn:En; [|reflexivity].
  rewrite (read_all_ext (read_normal h') (read_normal h) nl); [reflexivity|].
  intros q Hq. assert (X := VP _ _ A3 En q Hq). destruct q as [b|]; [|reflexivity]. cbn. rewrite (Vec b X). reflexivity.
Qed.

Lemma owns_other Q h h' o : owns Q h o -> (forall a, Q a -> nth_error h' a = nth_error h a) -> owns Q h' o.
Proof.
  intros [C [[Pv Kv] [Pf Kf]]] S.
  assert (K : forall a k, Q a -> has_kind h a k -> has_kind h' a k).
  { intros a k Qa [c [E Kc]]. exists c. rewrite S by exact Qa. auto. }
  split; [|split; split; auto].
  intros a Qa. destruct (C a Qa) as [c [E Kc]]. exists c. rewrite S by exact Qa. split; [exact E|].
  eapply cell_ok_mono; [exact Kc | auto | exact K].
Qed.

(** Two objects with separate cells: edits of one are invisible in the other. *)
Lemma edits_separate es : forall P Q h o o' h', owns P h o -> owns Q h o' ->
  (forall a, P a -> Q a -> False) -> apply_edits h o es = Some h' ->
  view h' o' = view h o' /\
  exists P', owns P' h' o /\ owns Q h' o' /\ (forall a, P' a -> Q a -> False).
Proof.
  induction es as [|e es IH]; intros P Q h o o' h' OP OQ D E; cbn in E.
  - injection E as <-. split; [reflexivity|]. exists P. auto.
  - destruct (apply_edit h o e) as [h1|] eqn:E1; [|discriminate].
    destruct (edit_frame P h o e h1 OP E1) as [[L [F K]] O1].
    assert (S : forall a, Q a -> nth_error h1 a = nth_error h a).
    { intros a Qa. apply F; [exact (closed_bound Q h a (proj1 OQ) Qa) | intro Pa; exact (D a Pa Qa)]. }
    assert (OQ1 := owns_other Q h h1 o' OQ S).
    assert (D1 : forall a, plus P (length h) (length h1) a -> Q a -> False).
    { intros a [Pa|B] Qa; [exact (D a Pa Qa)|]. assert (B2 := closed_bound Q h a (proj1 OQ) Qa). lia. }
    destruct (IH _ Q h1 o o' h' O1 OQ1 D1 E) as [V R]. split; [|exact R].
    rewrite V. apply (view_frame Q); assumption.
Qed.

Lemma edit_view_local P h o e h' : owns P h o -> apply_edit h o e = Some h' ->
  forall Q o', owns Q h o' -> (forall a, P a -> Q a -> False) ->
  view h' o' = view h o' /\ owns Q h' o' /\
  exists P', owns P' h' o /\ (forall a, P' a -> Q a -> False).
Proof.
  intros OP E Q o' OQ D.
  assert (E2 : apply_edits h o [e] = Some h') by (cbn; rewrite E; reflexivity).
  destruct (edits_separate [e] P Q h o o' h' OP OQ D E2) as [V [P' [O1 [O2 D2]]]]. eauto.
Qed.


(** ** Clone *)
Definition ext h h' := exists e, h' = h ++ e.
Lemma ext_refl h : ext h h. Proof. exists []. symmetry; apply app_nil_r. Qed.
Lemma ext_trans h1 h2 h3 : ext h1 h2 -> ext h2 h3 -> ext h1 h3.
Proof. intros [a ->] [b ->]. exists (a ++ b). rewrite app_assoc. reflexivity. Qed.
Lemma ext_alloc h c : ext h (h ++ [c]). Proof. exists [c]; reflexivity. Qed.
Lemma ext_some h h' a c : ext h h' -> nth_error h a = Some c -> nth_error h' a = Some c.
Proof. intros [e ->] E. rewrite nth_error_app1; [exact E|]. apply nth_error_Some; congruence. Qed.
Lemma ext_nth h h' a : ext h h' -> a < length h -> nth_error h' a = nth_error h a.
Proof. intros [e ->] L. apply nth_error_app1; exact L. Qed.
Lemma ext_len h h' : ext h h' -> length h <= length h'.
Proof. intros [e ->]. rewrite app_length; lia. Qed.
Lemma ext_kind h h' a k : ext h h' -> has_kind h a k -> has_kind h' a k.
Proof. intros X [c [E K]]. exists c. split; [eapply ext_some; eauto | exact K]. Qed.

Lemma read_all_mono {A B} (g g' : A -> option B) l ys :
  (forall x y, g x = Some y -> g' x = Some y) -> read_all g l = Some ys -> read_all g' l = Some ys.
Proof.
  intro M. revert ys; induction l as [|x l IH]; intros ys E; [exact E|]. cbn in *.
  destruct (g x) as [y|] eqn:Ex; [|discriminate]. destruct (read_all g l) as [zs|]; [|discriminate].
  rewrite (M _ _ Ex), (IH zs eq_refl). exact E.
Qed.
Lemma read_vec_mono h h' a v : ext h h' -> read_vec h a = Some v -> read_vec h' a = Some v.
Proof.
  intros X E. unfold read_vec in *. destruct (nth_error h a) eqn:En; [|discriminate].
  rewrite (ext_some _ _ _ _ X En). exact E.
Qed.
Lemma vptrs_mono h h' a l : ext h h' -> vptrs_at h a = Some l -> vptrs_at h' a = Some l.
Proof.
  intros X E. unfold vptrs_at in *. destruct (nth_error h a) eqn:En; [|discriminate].
  rewrite (ext_some _ _ _ _ X En). exact E.
Qed.
Lemma read_vertex_mono h h' p v : ext h h' -> read_vertex h p = Some v -> read_vertex h' p = Some v.
Proof. intro X. destruct p; [apply read_vec_mono; exact X | discriminate]. Qed.
Lemma read_normal_mono h h' p v : ext h h' -> read_normal h p = Some v -> read_normal h' p = Some v.
Proof.
  intros X. destruct p as [a|]; [|auto]. cbn. destruct (read_vec h a) as [w|] eqn:E; [|discriminate].
  rewrite (read_vec_mono _ _ _ _ X E). auto.
Qed.
Lemma read_face_mono h h' p f : ext h h' -> read_face h p = Some f -> read_face h' p = Some f.
Proof.
  intros X E. destruct p as [a|]; [|discriminate]. cbn in *.
  destruct (nth_error h a) as [c|] eqn:E1; [|discriminate]. rewrite (ext_some _ _ _ _ X E1).
  destruct c as [| | | | |u vs m us ns|]; try discriminate.
  destruct (nth_error h vs) as [c|] eqn:E2; [|discriminate]. rewrite (ext_some _ _ _ _ X E2).
  destruct c as [| | |vl| | |]; try discriminate.
  destruct (nth_error h us) as [c|] eqn:E3; [|discriminate]. rewrite (ext_some _ _ _ _ X E3).
  destruct c as [| | | |ul| |]; try discriminate.
  destruct (vptrs_at h ns) as [nl|] eqn:E4; [|discriminate]. rewrite (vptrs_mono _ _ _ _ X E4).
  destruct (read_all (read_normal h) nl) as [nv|] eqn:E5; [|discriminate].
  rewrite (read_all_mono _ _ _ _ (fun x y => read_normal_mono h h' x y X) E5). exact E.
Qed.
Lemma fptrs_mono h h' a l : ext h h' -> fptrs_at h a = Some l -> fptrs_at h' a = Some l.
Proof.
  intros X E. unfold fptrs_at in *. destruct (nth_error h a) eqn:En; [|discriminate].
  rewrite (ext_some _ _ _ _ X En). exact E.
Qed.
Lemma view_mono h h' o w : ext h h' -> view h o = Some w -> view h' o = Some w.
Proof.
  intros X E. unfold view in *.
  destruct (vptrs_at h (hVerts o)) as [vs|] eqn:E1; [|discriminate]. rewrite (vptrs_mono _ _ _ _ X E1).
  destruct (fptrs_at h (hFaces o)) as [fs|] eqn:E2; [|discriminate]. rewrite (fptrs_mono _ _ _ _ X E2).
  destruct (read_all (read_vertex h) vs) as [v|] eqn:E3; [|discriminate].
  rewrite (read_all_mono _ _ _ _ (fun x y => read_vertex_mono h h' x y X) E3).
  destruct (read_all (read_face h) fs) as [f|] eqn:E4; [|discriminate].
  rewrite (read_all_mono _ _ _ _ (fun x y => read_face_mono h h' x y X) E4). exact E.
Qed.

(** The fresh region between two heap sizes. *)
Definition fresh (n : nat) h : nat -> Prop := fun a => n <= a < length h.
Lemma closed_iff P Q h : (forall a, P a <-> Q a) -> closed P h -> closed Q h.
Proof.
  intros I C a Qa. destruct (C a (proj2 (I a) Qa)) as [c [E K]]. exists c. split; [exact E|].
  eapply cell_ok_mono; [exact K | intros b; apply I | auto].
Qed.
Lemma fresh_alloc n h c : n <= length h -> closed (fresh n h) h -> cell_ok (fresh n h) h c ->
  closed (fresh n (h ++ [c])) (h ++ [c]).
Proof.
  intros L C K. eapply closed_iff; [|apply closed_alloc; [exact C | exact K]].
  intro a. unfold plus, fresh. rewrite app_length; cbn [length]. lia.
Qed.
Lemma fresh_last n h c : n <= length h -> fresh n (h ++ [c]) (length h) /\ has_kind (h ++ [c]) (length h) (kind c).
Proof.
  intro L. split; [unfold fresh; rewrite app_length; cbn; lia|].
  exists c. split; [apply nth_alloc_new | reflexivity].
Qed.
Lemma fresh_mono n h h' a k : ext h h' -> fresh n h a /\ has_kind h a k -> fresh n h' a /\ has_kind h' a k.
Proof.
  intros X [A B]. split; [|eapply ext_kind; eauto]. apply ext_len in X. unfold fresh in *. lia.
Qed.

Definition good_ptr n h k (p : option nat) : Prop := match p with None => True | Some b => fresh n h b /\ has_kind h b k end.
Lemma good_ptr_mono n h h' k p : ext h h' -> good_ptr n h k p -> good_ptr n h' k p.
Proof. intro X. destruct p; [apply fresh_mono; exact X | auto]. Qed.

Lemma copy_vecs_ext ps : forall h h' l n, n <= length h -> closed (fresh n h) h -> copy_vecs h ps = Some (h', l) ->
  ext h h' /\ closed (fresh n h') h' /\ Forall (good_ptr n h' 0) l.
Proof.
  induction ps as [|[p|] ps IH]; intros h h' l n L C E; cbn in E; [| |discriminate].
  - injection E as <- <-. split; [apply ext_refl|]. split; [exact C | constructor].
  - destruct (nth_error h p) as [[v| | | | | |]|] eqn:Ev; try discriminate.
    destruct (copy_vecs (h ++ [CVec v]) ps) as [[h2 l2]|] eqn:E2; [|discriminate]. injection E as <- <-.
    destruct (IH (h ++ [CVec v]) h2 l2 n) as [X [C2 F]]; [rewrite app_length; lia | apply fresh_alloc; [exact L | exact C | exact I] | exact E2|].
    split; [eapply ext_trans; [apply ext_alloc | exact X]|]. split; [exact C2|]. constructor; [|exact F].
    apply (good_ptr_mono n (h ++ [CVec v])); [exact X|]. apply (fresh_last n h (CVec v)); exact L.
Qed.
Lemma copy_vecs_read ps : forall h vs, read_all (read_vertex h) ps = Some vs ->
  exists h' l, copy_vecs h ps = Some (h', l) /\ ext h h' /\ read_all (read_vertex h') l = Some vs.
Proof.
  induction ps as [|p ps IH]; intros h vs E; cbn in E.
  - injection E as <-. exists h, []. split; [reflexivity|]. split; [apply ext_refl | reflexivity].
  - destruct (read_vertex h p) as [v|] eqn:Ev; [|discriminate].
    destruct (read_all (read_vertex h) ps) as [ws|] eqn:Ew; [|discriminate]. injection E as <-.
    assert (Ew2 := read_all_mono _ _ _ _ (fun x y => read_vertex_mono h (h ++ [CVec v]) x y (ext_alloc _ _)) Ew).
    destruct (IH _ _ Ew2) as [h2 [l2 [E2 [X2 R2]]]].
    destruct p as [a|]; [|discriminate]. cbn in Ev. unfold read_vec in Ev.
    destruct (nth_error h a) as [[w| | | | | |]|] eqn:Ea; try discriminate. injection Ev as ->.
    exists h2, (Some (length h) :: l2). cbn. rewrite Ea. cbn. rewrite E2. split; [reflexivity|].
    split; [eapply ext_trans; [apply ext_alloc | exact X2]|]. rewrite R2.
    unfold read_vec. rewrite (ext_some _ _ _ _ X2 (nth_alloc_new h (CVec v))). reflexivity.
Qed.

Definition four h vl ul m : heap T :=
  (((h ++ [CInts vl]) ++ [CUVs ul]) ++ [CVPtrs []]) ++ [CFace 0 (length h) m (length (h ++ [CInts vl])) (length ((h ++ [CInts vl]) ++ [CUVs ul]))].
Lemma four_spec h vl ul m n : n <= length h -> closed (fresh n h) h ->
  let h4 := four h vl ul m in let a := length (((h ++ [CInts vl]) ++ [CUVs ul]) ++ [CVPtrs []]) in
  ext h h4 /\ closed (fresh n h4) h4 /\ good_ptr n h4 5 (Some a) /\ n <= length h4.
Proof.
  intros L C h4 a.
  set (h1 := h ++ [CInts vl]) in *. set (h2 := h1 ++ [CUVs ul]) in *. set (h3 := h2 ++ [CVPtrs []]) in *.
  assert (L1 : n <= length h1) by (unfold h1; rewrite app_length; lia).
  assert (L2 : n <= length h2) by (unfold h2; rewrite app_length; lia).
  assert (L3 : n <= length h3) by (unfold h3; rewrite app_length; lia).
  assert (X12 : ext h1 h2) by apply ext_alloc. assert (X23 : ext h2 h3) by apply ext_alloc.
  assert (X13 : ext h1 h3) by (eapply ext_trans; eauto).
  assert (C1 : closed (fresh n h1) h1) by (apply fresh_alloc; [exact L | exact C | exact I]).
  assert (C2 : closed (fresh n h2) h2) by (apply fresh_alloc; [exact L1 | exact C1 | exact I]).
  assert (C3 : closed (fresh n h3) h3) by (apply fresh_alloc; [exact L2 | exact C2 | constructor]).
  split; [unfold h4, four; fold h1 h2 h3; eapply ext_trans; [apply ext_alloc | eapply ext_trans; [exact X13 | apply ext_alloc]]|].
  assert (L4 : n <= length h4) by (unfold h4, four; fold h1 h2 h3; rewrite app_length; lia).
  split; [|split; [|exact L4]].
  - apply fresh_alloc; [exact L3 | exact C3|]. fold h1 h2. cbn.
    split; [|split].
    + apply (fresh_mono n h1 h3); [exact X13|]. apply (fresh_last n h (CInts vl)); exact L.
    + apply (fresh_mono n h2 h3); [exact X23|]. apply (fresh_last n h1 (CUVs ul)); exact L1.
    + apply (fresh_last n h2 (CVPtrs [])); exact L2.
  - unfold h4, four. fold h1 h2 h3. cbn. unfold a. fold h1 h2 h3.
    apply (fresh_last n h3 (CFace 0 (length h) m (length h1) (length h2))); exact L3.
Qed.
Lemma four_read h vl ul m h' : ext (four h vl ul m) h' ->
  read_face h' (Some (length (((h ++ [CInts vl]) ++ [CUVs ul]) ++ [CVPtrs []]))) = Some (mkFV 0 vl m ul []).
Proof.
  intro X. unfold four in X. unfold read_face.
  set (h1 := h ++ [CInts vl]) in *. set (h2 := h1 ++ [CUVs ul]) in *. set (h3 := h2 ++ [CVPtrs []]) in *.
  assert (X3 : ext h3 h') by (eapply ext_trans; [apply ext_alloc | exact X]).
  assert (X2 : ext h2 h') by (eapply ext_trans; [apply ext_alloc | exact X3]).
  assert (X1 : ext h1 h') by (eapply ext_trans; [apply ext_alloc | exact X2]).
  rewrite (ext_some _ _ _ _ X (nth_alloc_new h3 _)).
  rewrite (ext_some _ _ _ _ X1 (nth_alloc_new h (CInts vl))).
  rewrite (ext_some _ _ _ _ X2 (nth_alloc_new h1 (CUVs ul))).
  unfold vptrs_at. rewrite (ext_some _ _ _ _ X3 (nth_alloc_new h2 (CVPtrs []))). reflexivity.
Qed.

Lemma copy_faces_ext ps : forall h h' l n, n <= length h -> closed (fresh n h) h -> copy_faces h ps = Some (h', l) ->
  ext h h' /\ closed (fresh n h') h' /\ Forall (good_ptr n h' 5) l.
Proof.
  induction ps as [|[p|] ps IH]; intros h h' l n L C E; cbn in E; [| |discriminate].
  - injection E as <- <-. split; [apply ext_refl|]. split; [exact C | constructor].
  - destruct (nth_error h p) as [[| | | | |u vs m us ns|]|] eqn:Ev; try discriminate.
    destruct (nth_error h vs) as [[| | |vl| | |]|]; try discriminate.
    destruct (nth_error h us) as [[| | | |ul| |]|]; try discriminate.
    fold (four h vl ul m) in E.
    destruct (copy_faces (four h vl ul m) ps) as [[h2 l2]|] eqn:E2; [|discriminate]. injection E as <- <-.
    destruct (four_spec h vl ul m n L C) as [X4 [C4 [G4 L4]]].
    destruct (IH _ h2 l2 n L4 C4 E2) as [X [C2 F]].
    split; [eapply ext_trans; eauto|]. split; [exact C2|]. constructor; [|exact F].
    apply (good_ptr_mono n (four h vl ul m)); [exact X | exact G4].
Qed.
Lemma copy_faces_read ps : forall h fs, read_all (read_face h) ps = Some fs ->
  exists h' l, copy_faces h ps = Some (h', l) /\ ext h h' /\ read_all (read_face h') l = Some (map stripped fs).
Proof.
  induction ps as [|p ps IH]; intros h fs E; cbn [read_all] in E.
  - injection E as <-. exists h, []. split; [reflexivity|]. split; [apply ext_refl | reflexivity].
  - destruct (read_face h p) as [v|] eqn:Ev; [|discriminate].
    destruct (read_all (read_face h) ps) as [ws|] eqn:Ew; [|discriminate]. injection E as <-.
    destruct p as [a|]; [|discriminate]. cbn in Ev.
    destruct (nth_error h a) as [[| | | | |u vs m us ns|]|] eqn:Ea; try discriminate.
    destruct (nth_error h vs) as [[| | |vl| | |]|] eqn:E1; try discriminate.
    destruct (nth_error h us) as [[| | | |ul| |]|] eqn:E2; try discriminate.
    destruct (vptrs_at h ns) as [nl|]; [|discriminate].
    destruct (read_all (read_normal h) nl) as [nv|]; [|discriminate]. injection Ev as <-.
    assert (X4 : ext h (four h vl ul m)).
    { eexists. unfold four. rewrite <- !app_assoc. reflexivity. }
    assert (Ew2 := read_all_mono _ _ _ _ (fun x y => read_face_mono h _ x y X4) Ew).
    destruct (IH _ _ Ew2) as [h2 [l2 [E3 [X2 R2]]]].
    exists h2, (Some (length (((h ++ [CInts vl]) ++ [CUVs ul]) ++ [CVPtrs []])) :: l2).
    cbn [copy_faces]. rewrite Ea, E1, E2. cbn [alloc]. fold (four h vl ul m). rewrite E3. split; [reflexivity|].
    split; [eapply ext_trans; eauto|]. cbn [read_all]. rewrite (four_read h vl ul m h2 X2), R2. reflexivity.
Qed.

Lemma clone_view h o vs fs : view h o = Some (vs, fs) ->
  exists h' o', clone h o = Some (h', o') /\ view h' o = Some (vs, fs) /\ view h' o' = Some (vs, map stripped fs) /\
    hPlain o' = hPlain o /\ hScale o' = hScale o /\ hRotation o' = hRotation o /\
    hTranslation o' = hTranslation o /\ hColor o' = hColor o /\ hVertexByUID o' = hVertexByUID o /\
    (forall a c, nth_error h a = Some c -> nth_error h' a = Some c).
Proof.
  intro V. assert (V0 := V). unfold view, vptrs_at, fptrs_at in V.
  destruct (nth_error h (hVerts o)) as [[|ps| | | | |]|] eqn:E1; try discriminate.
  destruct (nth_error h (hFaces o)) as [[| |qs| | | |]|] eqn:E2; try discriminate.
  destruct (read_all (read_vertex h) ps) as [v|] eqn:E3; [|discriminate].
  destruct (read_all (read_face h) qs) as [f|] eqn:E4; [|discriminate]. injection V as -> ->.
  destruct (copy_vecs_read ps h vs E3) as [h1 [l1 [C1 [X1 R1]]]].
  assert (X2 := ext_alloc h1 (CVPtrs l1)). set (h2 := h1 ++ [CVPtrs l1]) in *.
  assert (X02 : ext h h2) by (eapply ext_trans; eauto).
  assert (E4' := read_all_mono _ _ _ _ (fun x y => read_face_mono h h2 x y X02) E4).
  destruct (copy_faces_read qs h2 fs E4') as [h3 [l3 [C3 [X3 R3]]]].
  assert (X4 := ext_alloc h3 (CFPtrs l3)). set (h4 := h3 ++ [CFPtrs l3]) in *.
  assert (X24 : ext h2 h4) by (eapply ext_trans; eauto).
  assert (X04 : ext h h4) by (eapply ext_trans; eauto).
  exists h4, (mkHObj (length h1) (length h3) (hScale o) (hRotation o) (hTranslation o) (hColor o) (hVertexByUID o) (hPlain o)).
  unfold clone. rewrite E1, E2, C1. cbn [alloc]. fold h2. rewrite C3. cbn [alloc]. fold h4.
  split; [reflexivity|]. split; [eapply view_mono; eauto|]. split; [|repeat split; try reflexivity; intros a c; apply ext_some; exact X04].
  unfold view, vptrs_at, fptrs_at. cbn [hVerts hFaces].
  rewrite (ext_some _ _ _ _ X24 (nth_alloc_new h1 (CVPtrs l1))).
  unfold h4 at 1. rewrite (nth_alloc_new h3 (CFPtrs l3)).
  assert (X14 : ext h1 h4) by (eapply ext_trans; eauto).
  rewrite (read_all_mono _ _ _ _ (fun x y => read_vertex_mono h1 h4 x y X14) R1).
  rewrite (read_all_mono _ _ _ _ (fun x y => read_face_mono h3 h4 x y X4) R3). reflexivity.
Qed.

Lemma clone_separate P h o h' o' : owns P h o -> clone h o = Some (h', o') ->
  owns P h' o /\ owns (fresh (length h) h') h' o' /\ ext h h'.
Proof.
  intros O E. unfold clone in E.
  destruct (nth_error h (hVerts o)) as [[|ps| | | | |]|] eqn:E1; try discriminate.
  destruct (nth_error h (hFaces o)) as [[| |qs| | | |]|] eqn:E2; try discriminate.
  destruct (copy_vecs h ps) as [[h1 l1]|] eqn:C1; [|discriminate]. cbn [alloc] in E.
  destruct (copy_faces (h1 ++ [CVPtrs l1]) qs) as [[h3 l3]|] eqn:C3; [|discriminate]. cbn [alloc] in E.
  injection E as <- <-.
  set (n := length h) in *.
  assert (C0 : closed (fresh n h) h) by (intros a [A B]; unfold n in *; lia).
  destruct (copy_vecs_ext ps h h1 l1 n (le_n _) C0 C1) as [X1 [K1 F1]].
  assert (L1 : n <= length h1) by (apply ext_len in X1; exact X1).
  assert (K2 := fresh_alloc n h1 (CVPtrs l1) L1 K1 F1).
  assert (L2 : n <= length (h1 ++ [CVPtrs l1])) by (rewrite app_length; lia).
  destruct (copy_faces_ext qs _ h3 l3 n L2 K2 C3) as [X3 [K3 F3]].
  assert (L3 : n <= length h3) by (apply ext_len in X3; lia).
  assert (K4 := fresh_alloc n h3 (CFPtrs l3) L3 K3 F3).
  assert (X04 : ext h (h3 ++ [CFPtrs l3])).
  { eapply ext_trans; [exact X1|]. eapply ext_trans; [apply ext_alloc|]. eapply ext_trans; [exact X3 | apply ext_alloc]. }
  split; [|split; [|exact X04]].
  - apply (owns_other P h); [exact O|]. intros a Pa. apply ext_nth; [exact X04|]. exact (closed_bound P h a (proj1 O) Pa).
  - split; [exact K4|]. cbn [hVerts hFaces]. split.
    + apply (fresh_mono n (h1 ++ [CVPtrs l1])); [eapply ext_trans; [exact X3 | apply ext_alloc]|].
      apply (fresh_last n h1 (CVPtrs l1)); exact L1.
    + apply (fresh_last n h3 (CFPtrs l3)); exact L3.
Qed.

Lemma both_separate es : forall P Q h o o' h', owns P h o -> owns Q h o' -> (forall a, P a -> Q a -> False) ->
  both_edits h o o' es = Some h' ->
  exists P' Q', owns P' h' o /\ owns Q' h' o' /\ (forall a, P' a -> Q' a -> False).
Proof.
  induction es as [|[w e] es IH]; intros P Q h o o' h' OP OQ D E; cbn in E.
  - injection E as <-. exists P, Q. auto.
  - destruct w; destruct (apply_edit h _ e) as [h1|] eqn:E1 in E; try discriminate.
    + destruct (edit_view_local P h o e h1 OP E1 Q o' OQ D) as [_ [OQ1 [P' [OP1 D1]]]].
      exact (IH P' Q h1 o o' h' OP1 OQ1 D1 E).
    + assert (D' : forall a, Q a -> P a -> False) by (intros a A B; exact (D a B A)).
      destruct (edit_view_local Q h o' e h1 OQ E1 P o OP D') as [_ [OP1 [Q' [OQ1 D1]]]].
      refine (IH P Q' h1 o o' h' OP1 OQ1 _ E). intros a A B; exact (D1 a B A).
Qed.

Lemma clone_independent h o h1 o' es h2 : wf h o -> clone h o = Some (h1, o') -> both_edits h1 o o' es = Some h2 ->
  (forall e h3, apply_edit h2 o e = Some h3 -> view h3 o' = view h2 o') /\
  (forall e h3, apply_edit h2 o' e = Some h3 -> view h3 o = view h2 o).
Proof.
  intros W C B. destruct (clone_separate _ h o h1 o' W C) as [O1 [O2 X]].
  assert (D : forall a, a < length h -> fresh (length h) h1 a -> False) by (intros a A [F _]; lia).
  destruct (both_separate es _ _ h1 o o' h2 O1 O2 D B) as [P [Q [OP [OQ D2]]]].
  split; intros e h3 E.
  - exact (proj1 (edit_view_local P h2 o e h3 OP E Q o' OQ D2)).
  - assert (D3 : forall a, Q a -> P a -> False) by (intros a A B'; exact (D2 a B' A)).
    exact (proj1 (edit_view_local Q h2 o' e h3 OQ E P o OP D3)).
Qed.
End Clone.
