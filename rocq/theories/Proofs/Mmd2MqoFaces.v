(** [convertFaces], the material ranges and the vertex weights of the PMX to MQO conversion. *)
From Coq Require Import String List ZArith Bool Lia Permutation.
From Verif.Model Require Import Num Vec Matrix Mqo MqoDoc Mmd2Mqo.
From Verif Require Import Spec.MmdConvSpec Proofs.MqoObjProofs Proofs.Mmd2MqoGroups.
Import ListNotations.
Local Open Scope Z_scope.
Local Open Scope list_scope.

(** *** Lists *)

Lemma zidx_Some {A} (l : list A) i x : zidx l i = Some x <-> 0 <= i /\ nth_error l (Z.to_nat i) = Some x.
Proof. unfold zidx. destruct (Z.ltb_spec i 0); split; intros H1; [discriminate|lia|split; [lia|auto]|tauto]. Qed.
Lemma zidx_bound {A} (l : list A) i x : zidx l i = Some x -> 0 <= i < Z.of_nat (length l).
Proof. rewrite zidx_Some. intros (H & E). assert (Z.to_nat i < length l)%nat by (apply nth_error_Some; congruence). lia. Qed.
Lemma zidx_None {A} (l : list A) i : zidx l i = None <-> ~ 0 <= i < Z.of_nat (length l).
Proof.
  split; intros H.
  - intros B. destruct (zidx_ok l i B). congruence.
  - destruct (zidx l i) eqn:E; [|reflexivity]. apply zidx_bound in E. contradiction.
Qed.
Lemma zidx_app1 {A} (a b : list A) i x : zidx a i = Some x -> zidx (a ++ b) i = Some x.
Proof.
  rewrite !zidx_Some. intros (H & E). split; [exact H|]. rewrite nth_error_app1; [exact E|]. apply nth_error_Some. congruence.
Qed.
Lemma zidx_last {A} (a : list A) x : zidx (a ++ [x]) (Z.of_nat (length a)) = Some x.
Proof. rewrite zidx_Some. split; [lia|]. rewrite Nat2Z.id, nth_error_app2, Nat.sub_diag by lia. reflexivity. Qed.
Lemma zidx_snoc {A} (l : list A) x i :
  zidx (l ++ [x]) i = if i =? Z.of_nat (length l) then Some x else zidx l i.
Proof.
  destruct (Z.eqb_spec i (Z.of_nat (length l))) as [->|Ne]; [apply zidx_last|].
  destruct (zidx l i) eqn:E; [apply zidx_app1; exact E|]. apply zidx_None in E. apply zidx_None. rewrite app_length. cbn. lia.
Qed.
Lemma zidx_app2 {A} (a b : list A) i : Z.of_nat (length a) <= i -> zidx (a ++ b) i = zidx b (i - Z.of_nat (length a)).
Proof.
  intros H. unfold zidx. destruct (Z.ltb_spec i 0); [lia|]. destruct (Z.ltb_spec (i - Z.of_nat (length a)) 0); [lia|].
  rewrite nth_error_app2 by lia. f_equal. lia.
Qed.

Lemma list_set_length {A} (l : list A) i x : length (list_set l i x) = length l.
Proof.
  unfold list_set. rewrite app_length, firstn_length. pose proof (skipn_length i l) as E.
  destruct (skipn i l) as [|a r]; cbn [length] in *; lia.
Qed.
Lemma list_set_nth {A} (l : list A) i x j : (i < length l)%nat ->
  nth_error (list_set l i x) j = if (j =? i)%nat then Some x else nth_error l j.
Proof.
  intros H. destruct (nth_error l i) as [y|] eqn:E; [|apply nth_error_None in E; lia].
  apply nth_error_split in E as (a & b & -> & <-). rewrite list_set_mid.
  destruct (Nat.eqb_spec j (length a)) as [->|Ne].
  - rewrite nth_error_app2, Nat.sub_diag by lia. reflexivity.
  - destruct (Nat.lt_ge_cases j (length a)).
    + rewrite !nth_error_app1 by lia. reflexivity.
    + rewrite !nth_error_app2 by lia. destruct (j - length a)%nat eqn:D; [lia|reflexivity].
Qed.
Lemma list_set_zidx {A} (l : list A) i x j : 0 <= i < Z.of_nat (length l) ->
  zidx (list_set l (Z.to_nat i) x) j = if j =? i then Some x else zidx l j.
Proof.
  intros H. unfold zidx. destruct (Z.ltb_spec j 0).
  - destruct (Z.eqb_spec j i); [lia|reflexivity].
  - rewrite list_set_nth by lia. destruct (Nat.eqb_spec (Z.to_nat j) (Z.to_nat i)), (Z.eqb_spec j i); try lia; reflexivity.
Qed.

(** *** The vertex map *)

Fixpoint kmap (i : Z) (keys : list Z) : list (Z * Z) :=
  match keys with [] => [] | v :: r => (v, i) :: kmap (i + 1) r end.
Lemma kmap_snoc keys : forall i x, kmap i (keys ++ [x]) = kmap i keys ++ [(x, i + Z.of_nat (length keys))].
Proof.
  induction keys as [|a keys IH]; intros i x; cbn [kmap app length]; [rewrite Z.add_0_r; reflexivity|].
  rewrite IH. replace (i + Z.of_nat (S (length keys))) with (i + 1 + Z.of_nat (length keys)) by lia. reflexivity.
Qed.
Lemma kmap_assoc keys : forall i v k, assoc (kmap i keys) v = Some k -> i <= k /\ zidx keys (k - i) = Some v.
Proof.
  induction keys as [|a keys IH]; intros i v k; cbn [kmap assoc]; [discriminate|].
  destruct (Z.eqb_spec a v) as [->|Ne].
  - intros E. injection E as <-. split; [lia|]. rewrite Z.sub_diag. reflexivity.
  - intros E. apply IH in E as (A & B). split; [lia|]. apply zidx_Some in B as (B & C). apply zidx_Some. split; [lia|].
    replace (Z.to_nat (k - i)) with (S (Z.to_nat (k - (i + 1)))) by lia. exact C.
Qed.
Lemma kmap_none keys : forall i v, assoc (kmap i keys) v = None -> ~ In v keys.
Proof.
  induction keys as [|a keys IH]; intros i v; cbn [kmap assoc]; [auto|].
  destruct (Z.eqb_spec a v) as [->|Ne]; [discriminate|]. intros E [A|A]; [congruence|]. eapply IH; eassumption.
Qed.
Lemma kmap_in keys : forall i v, In v keys -> exists k, assoc (kmap i keys) v = Some k.
Proof.
  intros i v H. destruct (assoc (kmap i keys) v) eqn:E; [eauto|]. apply kmap_none in E. contradiction.
Qed.
Lemma kmap_entries keys : forall i v k, In (v, k) (kmap i keys) <-> i <= k /\ zidx keys (k - i) = Some v.
Proof.
  induction keys as [|a keys IH]; intros i v k; cbn [kmap In].
  - split; [contradiction|]. intros (_ & E). apply zidx_bound in E. cbn in E. lia.
  - rewrite IH, !zidx_Some. split.
    + intros [E|(A & B & C)].
      * injection E as <- <-. rewrite Z.sub_diag. split; [lia|]. split; [lia|reflexivity].
      * split; [lia|]. split; [lia|]. replace (Z.to_nat (k - i)) with (S (Z.to_nat (k - (i + 1)))) by lia. exact C.
    + intros (A & B & C). destruct (Z.eq_dec k i) as [->|Ne].
      * left. rewrite Z.sub_diag in C. cbn in C. congruence.
      * right. split; [lia|]. split; [lia|]. replace (Z.to_nat (k - i)) with (S (Z.to_nat (k - (i + 1)))) in C by lia. exact C.
Qed.
Lemma kmap_snd keys : forall i, map snd (kmap i keys) = map (fun j => i + Z.of_nat j) (seq 0 (length keys)).
Proof.
  induction keys as [|a keys IH]; intros i; [reflexivity|]. cbn [kmap map snd length seq]. rewrite IH, <- seq_shift, map_map.
  f_equal; [lia|]. apply map_ext. intros j. lia.
Qed.
Lemma kmap_nodup keys i : NoDup (map snd (kmap i keys)).
Proof.
  rewrite kmap_snd. apply FinFun.Injective_map_NoDup; [|apply seq_NoDup]. intros a b E. lia.
Qed.

Section Faces.
Context {T : Type} {N : Num T}.

Lemma mirror_flip : mirror (T := T) = flip_z.
Proof. reflexivity. Qed.

Section OneModel.
Variable vs : list (pvert T).
Definition pos_of (v : Z) : option (vec3 T) := option_map (fun x => flip_z (pvPos x)) (zidx vs v).
Definition uv_of (v : Z) : option (vec2 T) := option_map (fun x => pvUV x) (zidx vs v).
Definition normal_of (v : Z) : option (vec3 T) := option_map (fun x => flip_z (pvNormal x)) (zidx vs v).

Definition State (keys : list Z) (st : list (vec3 T) * vmap) : Prop :=
  NoDup keys /\ snd st = kmap 0 keys /\ map Some (fst st) = map pos_of keys.

Lemma state_nil : State [] ([], []).
Proof. repeat split. constructor. Qed.
Lemma state_length keys st : State keys st -> length (fst st) = length keys.
Proof. intros (_ & _ & E). apply (f_equal (@length _)) in E. rewrite !map_length in E. exact E. Qed.

Lemma conv_corners_spec face : forall keys st ks us ns st', State keys st ->
  conv_corners vs face st = Some (ks, us, ns, st') ->
  exists new, State (keys ++ new) st' /\ map (zidx (keys ++ new)) ks = map Some face /\ map Some us = map uv_of face /\
              ns = map normal_of face /\ (forall v, In v (keys ++ new) <-> In v keys \/ In v face).
Proof.
  induction face as [|vi face IH]; intros keys st ks us ns st' I E; cbn [conv_corners] in E.
  - injection E as <- <- <- <-. exists []. rewrite app_nil_r. split; [exact I|]. repeat split; try reflexivity; [auto|intros [H|[]]; exact H].
  - destruct (zidx vs vi) as [v|] eqn:Ev; [|discriminate]. destruct st as [out m]. pose proof (state_length _ _ I) as Hl.
    cbn [fst] in Hl. destruct I as (I1 & I2 & I3). cbn [fst snd] in I2, I3.
    destruct (assoc m vi) as [k|] eqn:Ea.
    + destruct (conv_corners vs face (out, m)) as [[[[ks1 us1] ns1] st1]|] eqn:E1; [|discriminate].
      injection E as <- <- <- <-. destruct (IH keys (out, m) _ _ _ _ (conj I1 (conj I2 I3)) E1) as (new & S1 & A & B & C & D).
      exists new. split; [exact S1|]. rewrite I2 in Ea. apply kmap_assoc in Ea as (_ & Ea). rewrite Z.sub_0_r in Ea.
      cbn [map]. rewrite A, (zidx_app1 _ _ _ _ Ea). split; [reflexivity|]. split.
      { unfold uv_of at 1. rewrite Ev, B. reflexivity. }
      split. { unfold normal_of at 1. rewrite Ev, C. reflexivity. }
      intros x. rewrite D. cbn [In]. split; [tauto|]. intros [X|[<-|X]]; auto.
      left. apply zidx_Some in Ea as (_ & Ea). eapply nth_error_In. exact Ea.
    + set (st2 := (out ++ [mirror (pvPos v)], m ++ [(vi, Z.of_nat (length out))])) in *.
      destruct (conv_corners vs face st2) as [[[[ks1 us1] ns1] st1]|] eqn:E1; [|discriminate].
      injection E as <- <- <- <-.
      assert (Nin : ~ In vi keys) by (rewrite I2 in Ea; eapply kmap_none; exact Ea).
      assert (S2 : State (keys ++ [vi]) st2).
      { split; [|split].
        - apply (Permutation_NoDup (l := vi :: keys)); [apply Permutation_cons_append|constructor; assumption].
        - unfold st2. cbn [snd]. rewrite kmap_snoc, I2, Hl. reflexivity.
        - unfold st2. cbn [fst]. rewrite !map_app, I3. cbn [map]. replace (pos_of vi) with (Some (mirror (pvPos v))) by (unfold pos_of; rewrite Ev; reflexivity). reflexivity. }
      destruct (IH _ _ _ _ _ _ S2 E1) as (new & S1 & A & B & C & D).
      exists ([vi] ++ new). rewrite app_assoc. split; [exact S1|].
      cbn [map]. rewrite A. split.
      { f_equal. apply zidx_app1. rewrite Hl. apply zidx_last. }
      split. { unfold uv_of at 1. rewrite Ev, B. reflexivity. }
      split. { unfold normal_of at 1. rewrite Ev, C. reflexivity. }
      intros x. rewrite D, in_app_iff. cbn [In]. tauto.
Qed.

Lemma conv_corners_total face : forall st, Forall (fun v => 0 <= v < Z.of_nat (length vs)) face -> conv_corners vs face st <> None.
Proof.
  induction face as [|vi face IH]; intros st H; [discriminate|]. inversion H; subst. cbn [conv_corners].
  destruct (zidx_ok vs vi) as (v & ->); [assumption|]. destruct st as [out m].
  match goal with |- (let '(_, _) := ?X in _) <> None => destruct X as [k st'] end.
  specialize (IH st' ltac:(assumption)). destruct (conv_corners vs face st') as [[[[? ?] ?] ?]|]; congruence.
Qed.
End OneModel.

(** The vertices of the given faces. *)
Definition corner_of (p : pmodel T) (faces : list nat) (v : Z) : Prop :=
  exists fi, In fi faces /\ In v (nth fi (pFaces p) []).

Definition good_face (p : pmodel T) (f2m : list Z) (keys : list Z) (f : face T) (fi : nat) : Prop :=
  (fi < length (pFaces p))%nat /\ map (zidx keys) (fVerts f) = map Some (nth fi (pFaces p) []) /\
  nth_error f2m fi = Some (fMaterial f) /\ map Some (fUVs f) = map (uv_of (pVerts p)) (nth fi (pFaces p) []) /\
  fNormals f = map (normal_of (pVerts p)) (nth fi (pFaces p) []).

Lemma map_zidx_mono keys new ks face : map (zidx keys) ks = map Some face -> map (zidx (keys ++ new)) ks = map (@Some Z) face.
Proof.
  revert face. induction ks as [|k ks IH]; intros [|v face] E; try discriminate; [reflexivity|]. cbn [map] in *.
  injection E as E1 E2. rewrite (zidx_app1 _ _ _ _ E1), (IH _ E2). reflexivity.
Qed.

Lemma conv_faces_spec p f2m faces : forall keys st fs st', State (pVerts p) keys st ->
  conv_faces p f2m faces st = Some (fs, st') ->
  exists new, State (pVerts p) (keys ++ new) st' /\ Forall2 (good_face p f2m (keys ++ new)) fs faces /\
              (forall v, In v (keys ++ new) <-> In v keys \/ corner_of p faces v).
Proof.
  induction faces as [|fi faces IH]; intros keys st fs st' I E; cbn [conv_faces] in E.
  - injection E as <- <-. exists []. rewrite app_nil_r. split; [exact I|]. split; [constructor|].
    intros v. split; [auto|]. intros [H|(fi & [] & _)]. exact H.
  - destruct (nth_error (pFaces p) fi) as [f|] eqn:Ef; [|discriminate].
    destruct (nth_error f2m fi) as [mat|] eqn:Em; [|discriminate].
    destruct (conv_corners (pVerts p) f st) as [[[[ks us] ns] st1]|] eqn:E1; [|discriminate].
    destruct (conv_faces p f2m faces st1) as [[out st2]|] eqn:E2; [|discriminate]. injection E as <- <-.
    destruct (conv_corners_spec _ _ _ _ _ _ _ _ I E1) as (n1 & I1 & A & B & C & D).
    destruct (IH _ _ _ _ I1 E2) as (n2 & I2 & F & G). exists (n1 ++ n2). rewrite app_assoc. split; [exact I2|].
    pose proof (nth_error_nth _ _ [] Ef) as Hn. split.
    + constructor; [|exact F]. unfold good_face. cbn [fVerts fMaterial fUVs fNormals]. rewrite Hn.
      split; [apply nth_error_Some; congruence|]. split; [apply map_zidx_mono; exact A|]. auto.
    + intros v. rewrite G, D. unfold corner_of. split.
      * intros [[H|H]|(x & H & H')]; [auto| |].
        -- right. exists fi. rewrite Hn. cbn. auto.
        -- right. exists x. cbn. auto.
      * intros [H|(x & [<-|H] & H')]; [auto|rewrite Hn in H'; auto|]. right. eauto.
Qed.

Lemma conv_faces_total p f2m faces : forall st,
  Forall (Forall (fun v => 0 <= v < Z.of_nat (length (pVerts p)))) (pFaces p) ->
  length f2m = length (pFaces p) -> (forall fi, In fi faces -> (fi < length (pFaces p))%nat) ->
  conv_faces p f2m faces st <> None.
Proof.
  induction faces as [|fi faces IH]; intros st H L B; [discriminate|]. cbn [conv_faces].
  assert (Hfi : (fi < length (pFaces p))%nat) by (apply B; left; reflexivity).
  destruct (nth_error (pFaces p) fi) as [f|] eqn:Ef; [|apply nth_error_None in Ef; lia].
  destruct (nth_error f2m fi) as [mat|] eqn:Em; [|apply nth_error_None in Em; lia].
  assert (Hf : Forall (fun v => 0 <= v < Z.of_nat (length (pVerts p))) f).
  { rewrite Forall_forall in H. apply H. eapply nth_error_In. exact Ef. }
  pose proof (conv_corners_total (pVerts p) f st Hf) as T1.
  destruct (conv_corners (pVerts p) f st) as [[[[ks us] ns] st1]|]; [|congruence].
  specialize (IH st1 H L ltac:(intros; apply B; right; assumption)).
  destruct (conv_faces p f2m faces st1) as [[out st2]|]; congruence.
Qed.

(** *** Material ranges *)

Lemma set_range_spec n : forall f2m from mat f2m', set_range f2m from n mat = Some f2m' ->
  length f2m' = length f2m /\ ((n = 0)%nat \/ 0 <= from) /\
  forall i, nth_error f2m' i = if (from <=? Z.of_nat i) && (Z.of_nat i <? from + Z.of_nat n) then Some mat else nth_error f2m i.
Proof.
  induction n as [|n IH]; intros f2m from mat f2m' E; cbn [set_range] in E.
  - injection E as <-. split; [reflexivity|]. split; [auto|]. intros i.
    destruct (Z.leb_spec from (Z.of_nat i)), (Z.ltb_spec (Z.of_nat i) (from + Z.of_nat 0)); try reflexivity; lia.
  - destruct (valid f2m from) eqn:V; [|discriminate]. apply valid_spec in V.
    apply IH in E as (A & B & C). rewrite list_set_length in A. split; [exact A|]. split; [right; lia|].
    intros i. rewrite C, list_set_nth by lia.
    destruct (Z.leb_spec (from + 1) (Z.of_nat i)), (Z.leb_spec from (Z.of_nat i)), (Z.ltb_spec (Z.of_nat i) (from + 1 + Z.of_nat n)),
      (Z.ltb_spec (Z.of_nat i) (from + Z.of_nat (S n))), (Nat.eqb_spec i (Z.to_nat from)); cbn [andb]; try reflexivity; lia.
Qed.
Lemma set_range_total n : forall f2m from mat, 0 <= from -> from + Z.of_nat n <= Z.of_nat (length f2m) -> set_range f2m from n mat <> None.
Proof.
  induction n as [|n IH]; intros f2m from mat A B; [discriminate|]. cbn [set_range].
  replace (valid f2m from) with true by (symmetry; apply valid_spec; lia).
  apply IH; [lia|]. rewrite list_set_length. lia.
Qed.
Lemma set_range_none n f2m from mat : (0 < n)%nat -> Z.of_nat (length f2m) < from + Z.of_nat n -> set_range f2m from n mat = None.
Proof.
  intros Hn H. destruct (set_range f2m from n mat) as [x|] eqn:E; [|reflexivity]. apply set_range_spec in E as (A & B & C).
  assert (0 <= from) by (destruct B; lia). specialize (C (Z.to_nat (from + Z.of_nat n - 1))).
  replace (_ && _) with true in C.
  - assert (Z.to_nat (from + Z.of_nat n - 1) < length x)%nat by (apply nth_error_Some; congruence). lia.
  - symmetry. apply andb_true_iff. split; [apply Z.leb_le|apply Z.ltb_lt]; lia.
Qed.

Lemma range_faces_spec base n : forall from, 0 <= from ->
  range_faces base from n = filter (fun i => nmem i base) (seq (Z.to_nat from) n).
Proof.
  induction n as [|n IH]; intros from H; [reflexivity|]. cbn [range_faces seq filter]. rewrite IH by lia.
  destruct (Z.leb_spec 0 from); [|lia]. cbn [andb]. replace (Z.to_nat (from + 1)) with (S (Z.to_nat from)) by lia.
  destruct (nmem (Z.to_nat from) base); reflexivity.
Qed.

Lemma total_app a b : total (a ++ b) = (total a + total b)%nat.
Proof. induction a as [|m a IH]; [reflexivity|]. cbn [app total]. rewrite IH. lia. Qed.
Lemma owner_here a m b : forall idx fi, (total a <= fi < total a + Z.to_nat (pmCount m / 3))%nat ->
  owner (a ++ m :: b) idx fi = Some (idx + Z.of_nat (length a)).
Proof.
  induction a as [|x a IH]; intros idx fi H; cbn [app owner total length] in *.
  - destruct (Nat.ltb_spec fi (Z.to_nat (pmCount m / 3))); [f_equal; lia|lia].
  - destruct (Nat.ltb_spec fi (Z.to_nat (pmCount x / 3))); [lia|]. rewrite IH by lia. f_equal. lia.
Qed.

(** *** Weights *)

Lemma stored_set (ws : list (Z * list (Z * T))) obj vid w : stored ws obj vid = [] ->
  forall obj' vid', stored (set_vertex_weight ws obj vid w) obj' vid' =
    if (obj' =? obj) && (vid' =? vid) then [w] else stored ws obj' vid'.
Proof.
  unfold stored. induction ws as [|[o l] ws IH]; intros E obj' vid'; cbn [set_vertex_weight flat_map fst snd].
  - rewrite (Z.eqb_sym obj obj'). destruct (obj' =? obj); cbn [andb app filter fst snd map]; [|reflexivity].
    rewrite (Z.eqb_sym vid vid'). destruct (vid' =? vid); reflexivity.
  - cbn [flat_map fst snd] in E. destruct (Z.eqb_spec o obj) as [->|Ne].
    + rewrite filter_app, map_app in E. apply app_eq_nil in E as (E1 & E2). cbn [flat_map fst snd].
      destruct (Z.eqb_spec obj obj') as [<-|Ne'].
      * rewrite Z.eqb_refl. cbn [andb]. rewrite !filter_app, !map_app. cbn [filter map fst snd].
        rewrite (Z.eqb_sym vid vid'). destruct (Z.eqb_spec vid' vid) as [->|].
        -- rewrite E1, E2. reflexivity.
        -- rewrite app_nil_r. reflexivity.
      * destruct (Z.eqb_spec obj' obj); [congruence|]. reflexivity.
    + cbn [app] in E. cbn [flat_map fst snd]. rewrite !filter_app, !map_app. rewrite IH by exact E.
      destruct (Z.eqb_spec o obj') as [->|]; [|reflexivity].
      destruct (Z.eqb_spec obj' obj); [congruence|]. reflexivity.
Qed.

Fixpoint lookup (c : list (Z * T)) (b : Z) : option T :=
  match c with [] => None | (b', w) :: r => if b' =? b then Some w else lookup r b end.
Definition add_one (more : T -> T) (hundred : T) (a : option T) (w : T) : option T :=
  Some (match a with None => nmul hundred w | Some x => nadd x (more w) end).
Lemma lookup_add c b f m b' : lookup (weight_add c b f m) b' =
  if b' =? b then Some (match lookup c b with None => f | Some x => nadd x m end) else lookup c b'.
Proof.
  induction c as [|[x w] c IH]; cbn [weight_add lookup].
  - rewrite (Z.eqb_sym b b'). destruct (b' =? b); reflexivity.
  - destruct (Z.eqb_spec x b) as [->|Ne]; cbn [lookup].
    + rewrite (Z.eqb_sym b b'). destruct (b' =? b); reflexivity.
    + rewrite IH. destruct (Z.eqb_spec x b') as [->|].
      * destruct (Z.eqb_spec b' b); [congruence|reflexivity].
      * reflexivity.
Qed.
Lemma weight_add_nodup c b f m : NoDup (map fst c) -> NoDup (map fst (weight_add c b f m)).
Proof.
  induction c as [|[x w] c IH]; intros H; cbn [weight_add map fst]; [repeat constructor; auto|].
  cbn [map fst] in H. inversion H; subst. destruct (Z.eqb_spec x b) as [->|Ne]; cbn [map fst]; constructor; auto.
  intros A. apply in_map_iff in A as ([y u] & E & A). cbn in E. subst y.
  assert (K : forall c, In x (map fst (weight_add c b f m)) -> x = b \/ In x (map fst c)).
  { clear. induction c as [|[y w] c IH]; cbn [weight_add map fst In]; [intros [<-|[]]; auto|].
    destruct (Z.eqb_spec y b); cbn [map fst In]; [auto|]. intros [A|A]; [auto|]. apply IH in A. tauto. }
  destruct (K c) as [|]; [apply in_map_iff; exists (x, u); auto|congruence|contradiction].
Qed.
Lemma vertex_weights_spec more hundred bones : forall ws c c', vertex_weights more hundred bones ws c = Some c' -> NoDup (map fst c) ->
  NoDup (map fst c') /\
  forall b, lookup c' b = fold_left (add_one more hundred)
       (map snd (filter (fun e => (fst e =? b) && nltb nzero (snd e)) (combine bones ws))) (lookup c b).
Proof.
  induction bones as [|b bones IH]; intros [|w ws] c c' E H; cbn [vertex_weights] in E; try discriminate;
    try (injection E as <-; split; [exact H|reflexivity]).
  apply IH in E as (A & B).
  - split; [exact A|]. intros x. rewrite B. cbn [combine filter fst snd]. destruct (nltb nzero w).
    + rewrite lookup_add. rewrite (Z.eqb_sym b x). destruct (Z.eqb_spec x b) as [->|]; [|reflexivity]. reflexivity.
    + rewrite andb_false_r. reflexivity.
  - destruct (nltb nzero w); [apply weight_add_nodup; exact H|exact H].
Qed.
Lemma vertex_weights_total more hundred bones : forall ws c, length bones = length ws -> vertex_weights more hundred bones ws c <> None.
Proof.
  induction bones as [|b bones IH]; intros [|w ws] c H; try discriminate. cbn [vertex_weights]. apply IH. cbn in H. lia.
Qed.
Lemma vertex_weights_bones more hundred bones (Q : Z -> Prop) : forall ws c c', vertex_weights more hundred bones ws c = Some c' ->
  Forall Q bones -> Forall Q (map fst c) -> Forall Q (map fst c').
Proof.
  assert (K : forall c b f m, Q b -> Forall Q (map fst c) -> Forall Q (map fst (weight_add c b f m))).
  { induction c as [|[x w] c IHc]; intros b f m A B; cbn [weight_add map fst]; [auto|].
    cbn [map fst] in B. inversion B; subst. destruct (x =? b); cbn [map fst]; constructor; auto. }
  induction bones as [|b bones IH]; intros [|w ws] c c' E HB H; cbn [vertex_weights] in E; try discriminate;
    try (injection E as <-; exact H).
  inversion HB; subst. eapply IH; [exact E|assumption|]. destruct (nltb nzero w); auto.
Qed.

(** The total of a vertex for a bone. *)
Definition opt_list {A} (o : option A) : list A := match o with Some x => [x] | None => [] end.
Definition expected (more : T -> T) (hundred : T) (v : pvert T) (b : Z) : list T :=
  opt_list (fold_left (add_one more hundred) (weights_for v b) None).

Lemma lookup_none c b : ~ In b (map fst c) -> lookup c b = None.
Proof.
  induction c as [|[x w] c IH]; intros H; [reflexivity|]. cbn [lookup map fst In] in *.
  destruct (Z.eqb_spec x b) as [->|]; [exfalso; auto|]. apply IH. tauto.
Qed.

Lemma store_weights_rest obj vid : forall c (bw1 bw' : bone_weights (T := T)), store_weights bw1 c obj vid = Some bw' -> NoDup (map fst c) ->
              (forall b ws, In b (map fst c) -> zidx bw1 b = Some ws -> stored ws obj vid = []) ->
              length bw' = length bw1 /\
              forall b ws', zidx bw' b = Some ws' -> exists ws, zidx bw1 b = Some ws /\
                forall obj' vid', stored ws' obj' vid' =
                  if (obj' =? obj) && (vid' =? vid) then match lookup c b with Some w => [w] | None => stored ws obj vid end
                  else stored ws obj' vid'.
Proof.
  induction c as [|[b w] c IH]; intros bw bw' E H H0; cbn [store_weights] in E.
      - injection E as <-. split; [reflexivity|]. intros b ws' Z. exists ws'. split; [exact Z|]. intros obj' vid'.
        destruct (Z.eqb_spec obj' obj) as [->|]; [|reflexivity]. destruct (Z.eqb_spec vid' vid) as [->|]; reflexivity.
      - destruct (zidx bw b) as [ws|] eqn:Eb; [|discriminate]. pose proof (zidx_bound _ _ _ Eb) as Bd.
        cbn [map fst] in H. inversion H as [|? ? H1 H2]; subst.
        set (bw1 := list_set bw (Z.to_nat b) (set_vertex_weight ws obj vid w)) in *.
        assert (Hz : forall x, zidx bw1 x = if x =? b then Some (set_vertex_weight ws obj vid w) else zidx bw x).
        { intros x. unfold bw1. apply list_set_zidx. exact Bd. }
        apply IH in E as (A & B); [|exact H2|].
        + unfold bw1 in A. rewrite list_set_length in A. split; [exact A|]. intros x ws' Z. destruct (B _ _ Z) as (ws1 & Z1 & C).
          rewrite Hz in Z1. cbn [lookup]. rewrite (Z.eqb_sym b x). destruct (Z.eqb_spec x b) as [->|Ne].
          * injection Z1 as <-. exists ws. split; [exact Eb|]. intros obj' vid'. rewrite C.
            rewrite (lookup_none c b H1). rewrite !stored_set by (apply (H0 b); [left; reflexivity|exact Eb]).
            rewrite !Z.eqb_refl. cbn [andb]. destruct ((obj' =? obj) && (vid' =? vid)); reflexivity.
          * exists ws1. split; [exact Z1|]. exact C.
        + intros x ws1 Hx Z. rewrite Hz in Z. destruct (Z.eqb_spec x b) as [->|]; [contradiction|].
          apply (H0 x); [right; exact Hx|exact Z].
Qed.

Lemma store_weights_spec c (bw : bone_weights (T := T)) obj vid bw' : store_weights bw c obj vid = Some bw' -> NoDup (map fst c) ->
  (forall b ws, zidx bw b = Some ws -> stored ws obj vid = []) ->
  length bw' = length bw /\
  forall b ws', zidx bw' b = Some ws' -> exists ws, zidx bw b = Some ws /\
    forall obj' vid', stored ws' obj' vid' = if (obj' =? obj) && (vid' =? vid) then opt_list (lookup c b) else stored ws obj' vid'.
Proof.
  intros E H H0. destruct (store_weights_rest obj vid _ _ _ E H (fun b ws _ => H0 b ws)) as (A & B). split; [exact A|].
  intros b ws' Z. destruct (B _ _ Z) as (ws & Z0 & C). exists ws. split; [exact Z0|]. intros obj' vid'. rewrite C, (H0 _ _ Z0).
  destruct (lookup c b); reflexivity.
Qed.
Lemma store_weights_total c : forall (bw : bone_weights (T := T)) obj vid, Forall (fun b => 0 <= b < Z.of_nat (length bw)) (map fst c) ->
  store_weights bw c obj vid <> None.
Proof.
  induction c as [|[b w] c IH]; intros bw obj vid H; [discriminate|]. cbn [map fst] in H. inversion H; subst. cbn [store_weights].
  destruct (zidx_ok bw b) as (ws & ->); [assumption|]. apply IH. rewrite list_set_length. assumption.
Qed.

Lemma set_weights_spec more hundred vs entries : forall obj (bw bw' : bone_weights (T := T)), set_weights more hundred vs entries obj bw = Some bw' ->
  NoDup (map snd entries) ->
  (forall b ws vid, zidx bw b = Some ws -> In (vid - 1) (map snd entries) -> stored ws obj vid = []) ->
  length bw' = length bw /\
  forall b ws', zidx bw' b = Some ws' -> exists ws, zidx bw b = Some ws /\
    (forall obj' vid', obj' <> obj \/ ~ In (vid' - 1) (map snd entries) -> stored ws' obj' vid' = stored ws obj' vid') /\
    (forall pv mv, In (pv, mv) entries -> exists v, zidx vs pv = Some v /\ stored ws' obj (mv + 1) = expected more hundred v b).
Proof.
  induction entries as [|[pv mv] entries IH]; intros obj bw bw' E H H0; cbn [set_weights] in E.
  - injection E as <-. split; [reflexivity|]. intros b ws' Z. exists ws'. split; [exact Z|]. split; [reflexivity|contradiction].
  - destruct (zidx vs pv) as [v|] eqn:Ev; [|discriminate].
    destruct (vertex_weights more hundred (pvBones v) (pvWeights v) []) as [c|] eqn:Ec; [|discriminate].
    destruct (store_weights bw c obj (mv + 1)) as [bw1|] eqn:Es; [|discriminate].
    destruct (vertex_weights_spec _ _ _ _ _ _ Ec (NoDup_nil _)) as (C1 & C2).
    cbn [map snd] in H. inversion H as [|? ? H1 H2]; subst.
    apply store_weights_spec in Es as (S1 & S2); [|exact C1|].
    2:{ intros b ws Z. apply (H0 b ws _ Z). left. cbn. lia. }
    apply IH in E as (A & B); [|exact H2|].
    + split; [congruence|]. intros b ws' Z. destruct (B _ _ Z) as (ws1 & Z1 & X & Y). destruct (S2 _ _ Z1) as (ws & Z0 & W).
      exists ws. split; [exact Z0|]. split.
      * intros obj' vid' D. cbn [map snd In] in D. rewrite X, W.
        -- destruct (Z.eqb_spec obj' obj) as [->|]; [|reflexivity]. destruct (Z.eqb_spec vid' (mv + 1)) as [->|]; [|reflexivity].
           exfalso. destruct D as [D|D]; [congruence|]. apply D. left. lia.
        -- tauto.
      * intros pv' mv' [D|D].
        -- injection D as <- <-. exists v. split; [exact Ev|]. rewrite X.
           ++ rewrite W, !Z.eqb_refl. cbn [andb]. rewrite C2. reflexivity.
           ++ right. replace (mv + 1 - 1) with mv by lia. exact H1.
        -- apply Y. exact D.
    + intros b ws vid Z D. destruct (S2 _ _ Z) as (ws0 & Z0 & W). rewrite W.
      destruct (Z.eqb_spec vid (mv + 1)) as [->|].
      * exfalso. apply H1. replace (mv + 1 - 1) with mv in D by lia. exact D.
      * rewrite andb_false_r. apply (H0 b ws0 _ Z0). right. exact D.
Qed.

Lemma set_weights_total more hundred vs entries : forall obj (bw : bone_weights (T := T)),
  Forall (fun v => length (pvBones v) = length (pvWeights v) /\ Forall (fun b => 0 <= b < Z.of_nat (length bw)) (pvBones v)) vs ->
  (forall e, In e entries -> 0 <= fst e < Z.of_nat (length vs)) ->
  set_weights more hundred vs entries obj bw <> None.
Proof.
  induction entries as [|[pv mv] entries IH]; intros obj bw H B; [discriminate|]. cbn [set_weights].
  destruct (zidx_ok vs pv) as (v & Ev); [apply (B (pv, mv)); left; reflexivity|]. rewrite Ev.
  assert (Hv : In v vs). { apply zidx_Some in Ev as (_ & Ev). eapply nth_error_In. exact Ev. }
  rewrite Forall_forall in H. destruct (H v Hv) as (L & F).
  pose proof (vertex_weights_total more hundred (pvBones v) (pvWeights v) [] L) as T1.
  destruct (vertex_weights more hundred (pvBones v) (pvWeights v) []) as [c|] eqn:Ec; [|congruence].
  pose proof (vertex_weights_bones _ _ _ _ _ _ _ Ec F (Forall_nil _)) as Fc.
  pose proof (store_weights_total c bw obj (mv + 1) Fc) as T2.
  destruct (store_weights bw c obj (mv + 1)) as [bw1|] eqn:Es; [|congruence].
  apply IH; [|intros; apply B; right; assumption]. 
  assert (L1 : length bw1 = length bw).
  { clear -Es. revert bw bw1 Es. induction c as [|[b w] c IH]; intros bw bw1 E; cbn [store_weights] in E; [injection E as <-; reflexivity|].
    destruct (zidx bw b); [|discriminate]. apply IH in E. rewrite E. apply list_set_length. }
  rewrite L1. apply Forall_forall. exact H.
Qed.
End Faces.
