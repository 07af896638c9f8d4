(** The PMX to MQO conversion as a whole: faces, morph targets and weights. *)
From Coq Require Import String List ZArith Bool Lia Permutation.
From Verif.Model Require Import Num Vec Matrix Mqo MqoDoc Mmd2Mqo.
From Verif Require Import Spec.MmdConvSpec Proofs.MqoObjProofs Proofs.MqoDocProofs Proofs.Mmd2MqoGroups Proofs.Mmd2MqoFaces.
Import ListNotations.
Local Open Scope Z_scope.
Local Open Scope list_scope.

(** *** Lists *)

Lemma nth_error_ext {A} (a : list A) : forall b, (forall i, nth_error a i = nth_error b i) -> a = b.
Proof.
  induction a as [|x a IH]; intros [|y b] H; try reflexivity; try (specialize (H O); discriminate).
  pose proof (H O) as H0. injection H0 as <-. f_equal. apply IH. intros i. apply (H (S i)).
Qed.
Lemma nth_error_combine {A B} (a : list A) : forall (b : list B) i,
  nth_error (combine a b) i = match nth_error a i, nth_error b i with Some x, Some y => Some (x, y) | _, _ => None end.
Proof.
  induction a as [|x a IH]; intros [|y b] [|i]; cbn; try reflexivity; [destruct (nth_error a i); reflexivity|apply IH].
Qed.
Lemma filter_split {A} (p q r : A -> bool) l : (forall x, p x = q x || r x) -> (forall x, q x && r x = false) ->
  Permutation (filter q l ++ filter r l) (filter p l).
Proof.
  intros H1 H2. induction l as [|x l IH]; [constructor|]. cbn [filter]. specialize (H2 x). rewrite (H1 x).
  destruct (q x), (r x); try discriminate; cbn [orb app].
  - constructor. exact IH.
  - apply Permutation_sym, Permutation_cons_app, Permutation_sym. exact IH.
  - exact IH.
Qed.
Lemma partition_perm (lab : nat -> nat) n k : (forall x, (x < n)%nat -> (lab x < k)%nat) ->
  Permutation (concat (map (fun g => filter (fun x => Nat.eqb (lab x) g) (seq 0 n)) (seq 0 k))) (seq 0 n).
Proof.
  intros H.
  assert (K : forall k, Permutation (concat (map (fun g => filter (fun x => Nat.eqb (lab x) g) (seq 0 n)) (seq 0 k)))
                                  (filter (fun x => Nat.ltb (lab x) k) (seq 0 n))).
  { clear. induction k as [|k IH].
    - cbn [seq map concat]. replace (filter _ _) with (@nil nat); [constructor|].
      induction (seq 0 n) as [|x l IH]; [reflexivity|]. cbn [filter]. rewrite <- IH. reflexivity.
    - rewrite seq_S, map_app, concat_app. cbn [map concat Nat.add]. rewrite app_nil_r.
      eapply Permutation_trans; [apply Permutation_app_tail; exact IH|]. apply filter_split.
      + intros x. destruct (Nat.ltb_spec (lab x) (S k)), (Nat.ltb_spec (lab x) k), (Nat.eqb_spec (lab x) k); try reflexivity; lia.
      + intros x. destruct (Nat.ltb_spec (lab x) k), (Nat.eqb_spec (lab x) k); try reflexivity; lia. }
  eapply Permutation_trans; [apply K|]. replace (filter _ _) with (seq 0 n); [apply Permutation_refl|].
  assert (F : forall l, (forall x, In x l -> (x < n)%nat) -> filter (fun x => Nat.ltb (lab x) k) l = l).
  { induction l as [|x l IH]; intros B; [reflexivity|]. cbn [filter].
    destruct (Nat.ltb_spec (lab x) k) as [_|L]; [|specialize (H x (B x (or_introl eq_refl))); lia].
    rewrite IH; [reflexivity|]. intros; apply B; right; assumption. }
  symmetry. apply F. intros x Hx. apply in_seq in Hx. lia.
Qed.

Section Main.
Context {T : Type} {N : Num T}.
Variables (hundred facet : T) (shuffle : vmap -> vmap).
Hypothesis shuffle_perm : forall m, Permutation (shuffle m) m.

(** What an object is made of. *)
Inductive info := IMesh (first : bool) (src : list Z) (fsrc : list nat) | ITarget.
Definition info_faces (i : info) : list nat := match i with IMesh _ _ f => f | ITarget => [] end.

Definition Oinv (p : pmodel T) (o : object T) (i : info) : Prop :=
  oUID o = 0 /\
  match i with
  | IMesh k src fsrc => mesh o = true /\ shows p o src fsrc /\ map (resolve o) (oFaces o) = map (source p) fsrc /\
                        (k = false -> prefix "M_" (oName o) = false)
  | ITarget => mesh o = false
  end.
Definition more_of (k : bool) : T -> T := if k then nmul hundred else fun w => w.
Definition exp_w (p : pmodel T) (i : info) (b vid : Z) : list T :=
  match i with
  | IMesh k src _ => match zidx src (vid - 1) with
                     | Some v => match zidx (pVerts p) v with Some x => expected (more_of k) hundred x b | None => [] end
                     | None => []
                     end
  | ITarget => []
  end.
Definition Winv (p : pmodel T) (bw : bone_weights (T := T)) (is : list info) : Prop :=
  length bw = pNBones p /\
  forall b ws, zidx bw b = Some ws -> forall obj vid,
    stored ws obj vid = match zidx is (obj - 1) with Some i => exp_w p i b vid | None => [] end.

Lemma winv_target p bw is : Winv p bw is -> Winv p bw (is ++ [ITarget]).
Proof.
  intros (L & H). split; [exact L|]. intros b ws Z obj vid. rewrite (H _ _ Z), zidx_snoc.
  destruct (Z.eqb_spec (obj - 1) (Z.of_nat (length is))) as [E|]; [|reflexivity].
  replace (zidx is (obj - 1)) with (@None info); [reflexivity|]. symmetry. apply zidx_None. lia.
Qed.
Lemma winv_targets p n : forall bw is, Winv p bw is -> Winv p bw (is ++ repeat ITarget n).
Proof.
  induction n as [|n IH]; intros bw is H; [rewrite app_nil_r; exact H|].
  cbn [repeat]. change (ITarget :: repeat ITarget n) with ([ITarget] ++ repeat ITarget n). rewrite app_assoc.
  apply IH, winv_target, H.
Qed.
Lemma winv_mesh p bw bw' is k keys out fsrc : Winv p bw is -> State (pVerts p) keys (out, kmap 0 keys) ->
  set_weights (more_of k) hundred (pVerts p) (shuffle (kmap 0 keys)) (Z.of_nat (length is) + 1) bw = Some bw' ->
  Winv p bw' (is ++ [IMesh k keys fsrc]).
Proof.
  intros (L & H) S E.
  assert (Nd : NoDup (map snd (shuffle (kmap 0 keys)))).
  { eapply Permutation_NoDup; [apply Permutation_map, Permutation_sym, shuffle_perm|]. apply kmap_nodup. }
  apply set_weights_spec in E as (A & B); [|exact Nd|].
  2:{ intros b ws vid Z _. rewrite (H _ _ Z). replace (zidx is _) with (@None info); [reflexivity|].
      symmetry. apply zidx_None. lia. }
  split; [congruence|]. intros b ws' Z obj vid. destruct (B _ _ Z) as (ws & Z0 & X & Y). rewrite zidx_snoc.
  destruct (Z.eqb_spec (obj - 1) (Z.of_nat (length is))) as [Eo|Ne].
  - assert (obj = Z.of_nat (length is) + 1) as -> by lia. cbn [exp_w].
    destruct (zidx keys (vid - 1)) as [v|] eqn:Ev.
    + assert (In (v, vid - 1) (shuffle (kmap 0 keys))) as Hin.
      { eapply Permutation_in; [apply Permutation_sym, shuffle_perm|]. apply kmap_entries. rewrite Z.sub_0_r.
        apply zidx_bound in Ev as Hb. split; [lia|exact Ev]. }
      destruct (Y _ _ Hin) as (x & Ex & W). rewrite Ex. replace (vid - 1 + 1) with vid in W by lia. exact W.
    + rewrite X; [rewrite (H _ _ Z0); replace (zidx is _) with (@None info); [reflexivity|]; symmetry; apply zidx_None; lia|].
      right. intros C. apply in_map_iff in C as ([v k'] & Ek & C). cbn in Ek. subst k'.
      apply (Permutation_in _ (shuffle_perm _)) in C. apply kmap_entries in C as (_ & C). rewrite Z.sub_0_r in C. congruence.
  - rewrite X by (left; lia). apply (H _ _ Z0).
Qed.

(** *** One object *)

Lemma state_zidx vs keys out m k v : State vs keys (out, m) -> zidx keys k = Some v -> zidx out k = pos_of (T := T) vs v.
Proof.
  intros (_ & _ & E) H. cbn [fst] in E. apply zidx_Some in H as (H & Hn).
  pose proof (map_nth_error (pos_of vs) _ _ Hn) as Q. rewrite <- E in Q. rewrite nth_error_map in Q.
  unfold zidx. destruct (Z.ltb_spec k 0); [lia|]. destruct (nth_error out (Z.to_nat k)); cbn in Q; congruence.
Qed.

Lemma good_shows p f2m keys out m fs faces name : State (pVerts p) keys (out, m) ->
  Forall2 (good_face p f2m keys) fs faces ->
  (forall fi, In fi faces -> nth_error f2m fi = owner (pMats p) 0 fi) ->
  shows p (new_object facet name out fs) keys faces /\
  map (resolve (new_object facet name out fs)) fs = map (source p) faces.
Proof.
  intros S F Hm. split.
  - split; [exact (proj1 S)|]. split; [exact (proj2 (proj2 S))|]. cbn [oFaces new_object].
    induction F as [|f fi fs faces (_ & A & B & _) F IH]; constructor.
    + split; [exact A|]. rewrite <- B. apply Hm. left. reflexivity.
    + apply IH. intros; apply Hm; right; assumption.
  - induction F as [|f fi fs faces (_ & A & B & C & D) F IH]; [reflexivity|]. cbn [map]. f_equal.
    + unfold resolve, source. cbn [oVerts new_object].
      replace (Some (fMaterial f)) with (owner (pMats p) 0 fi) by (rewrite <- B; symmetry; apply Hm; left; reflexivity).
      replace (map (zidx out) (fVerts f)) with (map (pos_of (pVerts p)) (nth fi (pFaces p) [])).
      { rewrite C, D. reflexivity. }
      revert A. generalize (nth fi (pFaces p) []). induction (fVerts f) as [|k ks IHk]; intros [|v face] A; try discriminate; [reflexivity|].
      cbn [map] in *. injection A as A1 A2. rewrite (state_zidx _ _ _ _ _ _ S A1). f_equal. apply IHk. exact A2.
    + apply IH. intros; apply Hm; right; assumption.
Qed.

Lemma forall2_snoc {A B} (R : A -> B -> Prop) l l' x y : Forall2 R l l' -> R x y -> Forall2 R (l ++ [x]) (l' ++ [y]).
Proof. intros. apply Forall2_app; auto. Qed.
Lemma forall2_len {A B} (R : A -> B -> Prop) l l' : Forall2 R l l' -> length l = length l'.
Proof. induction 1; cbn; congruence. Qed.

(** *** The materials *)

Lemma mat_loop_spec p base rest : forall done os bw f2m os' bw' f2m' is,
  mat_loop hundred facet shuffle p base (Z.of_nat (length done)) (Z.of_nat (total done)) rest os bw f2m = Some (os', bw', f2m') ->
  pMats p = done ++ rest -> Forall (fun m => 0 <= pmCount m) (pMats p) -> length f2m = length (pFaces p) ->
  (forall fi, (fi < total done)%nat -> nth_error f2m fi = owner (pMats p) 0 fi) ->
  Forall2 (Oinv p) os is -> Winv p bw is ->
  exists new, Forall2 (Oinv p) os' (is ++ new) /\ Winv p bw' (is ++ new) /\ length f2m' = length (pFaces p) /\
    (forall fi, (fi < total (pMats p))%nat -> nth_error f2m' fi = owner (pMats p) 0 fi) /\
    flat_map info_faces new = filter (fun i => nmem i base) (seq (total done) (total rest)).
Proof.
  induction rest as [|mat rest IH]; intros done os bw f2m os' bw' f2m' is E Hp Hc L Hf O W; cbn [mat_loop] in E.
  - injection E as <- <- <-. exists []. rewrite !app_nil_r. rewrite Hp, app_nil_r in *. repeat split; try assumption; [apply W|apply W].
  - assert (Hcnt : 0 <= pmCount mat).
    { rewrite Hp in Hc. apply Forall_app in Hc as (_ & Hc). inversion Hc; assumption. }
    rewrite Z.quot_div_nonneg in E by lia. set (cnt := pmCount mat / 3) in *.
    assert (Hcn : 0 <= cnt) by (apply Z.div_pos; lia).
    destruct (set_range f2m (Z.of_nat (total done)) (Z.to_nat cnt) (Z.of_nat (length done))) as [f2m1|] eqn:E1; [|discriminate].
    destruct (conv_faces p f2m1 _ ([], [])) as [[fs [vs m]]|] eqn:E2; [|discriminate].
    apply set_range_spec in E1 as (L1 & _ & R1). rewrite range_faces_spec in E2 by lia. rewrite Nat2Z.id in E2.
    destruct (conv_faces_spec _ _ _ _ _ _ _ (state_nil (pVerts p)) E2) as (keys & S & F & Hk). cbn [app] in S, F, Hk.
    assert (Hd : total (done ++ [mat]) = (total done + Z.to_nat cnt)%nat) by (rewrite total_app; cbn [total]; fold cnt; lia).
    assert (Hp' : pMats p = (done ++ [mat]) ++ rest) by (rewrite <- app_assoc; exact Hp).
    assert (Hf' : forall fi, (fi < total (done ++ [mat]))%nat -> nth_error f2m1 fi = owner (pMats p) 0 fi).
    { intros fi Hfi. rewrite Hd in Hfi. rewrite R1. destruct (Z.leb_spec (Z.of_nat (total done)) (Z.of_nat fi)) as [G|G].
      - destruct (Z.ltb_spec (Z.of_nat fi) (Z.of_nat (total done) + Z.of_nat (Z.to_nat cnt))); [|lia]. cbn [andb].
        rewrite Hp. rewrite owner_here; [reflexivity|]. fold cnt. lia.
      - cbn [andb]. apply Hf. lia. }
    replace (Z.of_nat (length done) + 1) with (Z.of_nat (length (done ++ [mat]))) in E by (rewrite app_length; cbn; lia).
    replace (Z.of_nat (total done) + cnt) with (Z.of_nat (total (done ++ [mat]))) in E by (rewrite Hd; lia).
    assert (Hseq : seq (total done) (total (mat :: rest)) = seq (total done) (Z.to_nat cnt) ++ seq (total (done ++ [mat])) (total rest)).
    { rewrite Hd. cbn [total]. fold cnt. rewrite seq_app. reflexivity. }
    rewrite Hseq, filter_app.
    destruct ((match fs with [] => true | _ => false end) && negb (pmCount mat =? 0)) eqn:Sk.
    + destruct fs as [|f fs]; [|discriminate]. inversion F as [Hnil|]; subst.
      destruct (IH _ _ _ _ _ _ _ _ E Hp' Hc ltac:(congruence) Hf' O W) as (new & A & B & C & D & G).
      exists new. rewrite G. auto.
    + destruct (set_weights _ _ _ (shuffle m) _ bw) as [bw1|] eqn:E3; [|discriminate].
      pose proof (proj1 (proj2 S)) as Hm. cbn [snd] in Hm. subst m.
      assert (Hfaces : forall fi, In fi (filter (fun i => nmem i base) (seq (total done) (Z.to_nat cnt))) -> nth_error f2m1 fi = owner (pMats p) 0 fi).
      { intros fi Hin. apply filter_In in Hin as (Hin & _). apply in_seq in Hin. apply Hf'. lia. }
      destruct (good_shows p f2m1 keys vs _ fs _ ("M_" ++ pmName mat) S F Hfaces) as (Sh & Re).
      rewrite (forall2_len _ _ _ O) in E3.
      pose proof (winv_mesh p bw bw1 is true keys vs (filter (fun i => nmem i base) (seq (total done) (Z.to_nat cnt))) W S E3) as W1.
      assert (O1 : Forall2 (Oinv p) (os ++ [new_object facet ("M_" ++ pmName mat) vs fs])
                     (is ++ [IMesh true keys (filter (fun i => nmem i base) (seq (total done) (Z.to_nat cnt)))])).
      { apply forall2_snoc; [exact O|]. split; [reflexivity|]. split; [reflexivity|]. split; [exact Sh|]. split; [exact Re|discriminate]. }
      destruct (IH _ _ _ _ _ _ _ _ E Hp' Hc ltac:(congruence) Hf' O1 W1) as (new & A & B & C & D & G).
      rewrite <- app_assoc in A, B. eexists. split; [exact A|]. split; [exact B|]. split; [exact C|]. split; [exact D|].
      cbn [app flat_map info_faces]. rewrite G. reflexivity.
Qed.

(** *** Morph targets *)

Lemma key_eq keys k k' v v' m : NoDup keys -> assoc (kmap 0 keys) v = Some k -> zidx keys k' = Some v' -> m = kmap 0 keys ->
  (k' =? map_at m v) = (v =? v').
Proof.
  intros Nd A B ->. unfold map_at. rewrite A. apply kmap_assoc in A as (_ & A). rewrite Z.sub_0_r in A.
  destruct (Z.eqb_spec k' k) as [->|Ne], (Z.eqb_spec v v') as [->|Ne']; try reflexivity; exfalso.
  - congruence.
  - apply Ne. apply zidx_Some in A as (A & A'), B as (B & B').
    assert (Z.to_nat k' = Z.to_nat k); [|lia]. apply (proj1 (NoDup_nth_error keys) Nd); [|congruence].
    apply nth_error_Some. congruence.
Qed.

Lemma move_vertices_spec keys l : forall vs vs', NoDup keys -> length vs = length keys ->
  (forall e, In e l -> In (fst e) keys) ->
  move_vertices (T := T) (kmap 0 keys) vs l = Some vs' ->
  vs' = map (fun e => fold_left (fun a d => if fst d =? fst e then v3add a (flip_z (snd d)) else a) l (snd e)) (combine keys vs).
Proof.
  induction l as [|d l IH]; intros vs vs' Nd L Hk E; cbn [move_vertices] in E.
  - injection E as <-. cbn [fold_left]. rewrite <- (map_id vs) at 1. clear -L. revert keys L.
    induction vs as [|v vs IH]; intros [|k keys] L; try discriminate; [reflexivity|]. cbn [combine map snd]. f_equal. apply IH. cbn in L. lia.
  - unfold move_vertex in E. destruct (kmap_in keys 0 (fst d) (Hk d (or_introl eq_refl))) as (k & Ek).
    unfold map_at in E. rewrite Ek in E. destruct (zidx vs k) as [v|] eqn:Ev; [|discriminate].
    apply IH in E; [|exact Nd|rewrite list_set_length; exact L|intros; apply Hk; right; assumption].
    rewrite E. apply kmap_assoc in Ek as (_ & Ek). rewrite Z.sub_0_r in Ek.
    pose proof (zidx_bound _ _ _ Ev) as Bv.
    apply nth_error_ext. intros i. rewrite !nth_error_map, !nth_error_combine. rewrite list_set_nth by lia.
    destruct (nth_error keys i) as [ki|] eqn:Ei; [|reflexivity]. cbn [option_map].
    destruct (Nat.eqb_spec i (Z.to_nat k)) as [->|Ne].
    + apply zidx_Some in Ek as (_ & Ek). apply zidx_Some in Ev as (_ & Ev). rewrite Ev.
      assert (ki = fst d) as -> by congruence. cbn [option_map fst snd fold_left]. rewrite Z.eqb_refl. reflexivity.
    + destruct (nth_error vs i) as [u|]; [|reflexivity]. cbn [option_map fst snd fold_left].
      destruct (Z.eqb_spec (fst d) ki) as [<-|]; [|reflexivity]. exfalso. apply Ne.
      apply zidx_Some in Ek as (_ & Ek). apply (proj1 (NoDup_nth_error keys) Nd); [apply nth_error_Some; congruence|congruence].
Qed.
Lemma move_vertices_total m l : forall (vs : list (vec3 T)), (forall e, In e l -> 0 <= map_at m (fst e) < Z.of_nat (length vs)) ->
  move_vertices m vs l <> None.
Proof.
  induction l as [|d l IH]; intros vs H; [discriminate|]. cbn [move_vertices]. unfold move_vertex.
  destruct (zidx_ok vs (map_at m (fst d)) (H d (or_introl eq_refl))) as (v & ->). apply IH.
  intros e He. rewrite list_set_length. apply H. right. exact He.
Qed.

Lemma move_corners_cons l m k ks : forall u us,
  fold_left (fun us (e : Z * vec2 T) => move_corners (map_at m (fst e)) (snd e) (k :: ks) us) l (u :: us) =
  fold_left (fun u (e : Z * vec2 T) => if k =? map_at m (fst e) then v2add u (snd e) else u) l u ::
  fold_left (fun us (e : Z * vec2 T) => move_corners (map_at m (fst e)) (snd e) ks us) l us.
Proof.
  induction l as [|e l IH]; intros u us; [reflexivity|]. cbn [fold_left move_corners]. rewrite IH. reflexivity.
Qed.
Lemma fold_ext_in {A C} (f g : C -> A -> C) l : (forall c a, In a l -> f c a = g c a) -> forall c, fold_left f l c = fold_left g l c.
Proof.
  intros H. induction l as [|a l IH]; intros c; [reflexivity|]. cbn. rewrite H by (left; reflexivity). apply IH.
  intros; apply H; right; assumption.
Qed.
Lemma move_corners_spec keys l ks : forall us face, NoDup keys -> (forall e, In e l -> In (fst e) keys) ->
  map (zidx keys) ks = map Some face -> length us = length ks ->
  map Some (fold_left (fun us (e : Z * vec2 T) => move_corners (map_at (kmap 0 keys) (fst e)) (snd e) ks us) l us) =
  map (fun e => option_map (fun v => fold_left (fun a d => if fst d =? v then v2add a (snd d) else a) l (snd e)) (zidx keys (fst e)))
      (combine ks us).
Proof.
  induction ks as [|k ks IH]; intros [|u us] [|v face] Nd Hk E L; try discriminate.
  - clear. cbn [combine map]. replace (fold_left _ l []) with (@nil (vec2 T)); [reflexivity|].
    induction l as [|e l IH]; [reflexivity|]. cbn [fold_left move_corners]. exact IH.
  - cbn [map] in E. injection E as E1 E2. rewrite move_corners_cons. cbn [map combine fst snd]. rewrite E1. cbn [option_map]. f_equal.
    + f_equal. apply fold_ext_in. intros c e He. destruct (kmap_in keys 0 (fst e) (Hk e He)) as (x & Ex).
      rewrite (key_eq keys x k (fst e) v _ Nd Ex E1 eq_refl). reflexivity.
    + apply (IH us face); auto.
Qed.

Lemma move_uv_fold m l : forall fs : list (face T), (forall e, In e l -> 0 <= fst e) -> fold_left (move_uv m) l fs =
  map (fun f => mkFace (fUID f) (fVerts f) (fMaterial f)
         (fold_left (fun us e => move_corners (map_at m (fst e)) (snd e) (fVerts f) us) l (fUVs f)) (fNormals f)) fs.
Proof.
  induction l as [|e l IH]; intros fs H; cbn [fold_left].
  - rewrite <- (map_id fs) at 1. apply map_ext. intros []. reflexivity.
  - rewrite IH by (intros; apply H; right; assumption). unfold move_uv.
    destruct (Z.ltb_spec (fst e) 0) as [B|_]; [specialize (H e (or_introl eq_refl)); lia|].
    rewrite map_map. apply map_ext. intros []. reflexivity.
Qed.

Definition all_used (p : pmodel T) (faces : list nat) (m : pmorph T) : Prop := forall t, In t (morph_targets_of m) -> corner_of p faces t.

Lemma morph_object_spec p f2m keys vs fs faces mo t name :
  State (pVerts p) keys (vs, kmap 0 keys) -> Forall2 (good_face p f2m keys) fs faces ->
  (forall v, In v keys <-> corner_of p faces v) ->
  morph_object facet (kmap 0 keys) vs fs mo = Some t ->
  oUID t = 0 /\ mesh t = false /\ oName t = phName mo /\
  (all_used p faces mo -> morphed p mo (new_object facet name vs fs) t keys).
Proof.
  intros S F Hk E. unfold morph_object in E. destruct (move_vertices (kmap 0 keys) vs (phVerts mo)) as [vs'|] eqn:Ev; [|discriminate].
  injection E as <-. split; [reflexivity|]. split; [reflexivity|]. split; [reflexivity|]. intros U.
  split; [reflexivity|]. split; [reflexivity|]. split; [reflexivity|]. cbn [oVerts oFaces new_object target_object]. split.
  - eapply move_vertices_spec; [exact (proj1 S)|exact (state_length _ _ _ S)| |exact Ev].
    intros e He. apply Hk, U. apply in_app_iff. left. apply in_map. exact He.
  - assert (Hu : forall e, In e (phUVs mo) -> In (fst e) keys).
    { intros e He. apply Hk, U. apply in_app_iff. right. apply in_map. exact He. }
    assert (Hpos : forall v, In v keys -> 0 <= v).
    { intros v Hv. destruct S as (_ & _ & E). cbn [fst] in E. apply (in_map (pos_of (pVerts p))) in Hv. rewrite <- E in Hv.
      apply in_map_iff in Hv as (x & Hx & _). unfold pos_of in Hx. destruct (zidx (pVerts p) v) eqn:Z; [|discriminate].
      apply zidx_bound in Z. lia. }
    rewrite move_uv_fold by (intros; apply Hpos, Hu; assumption). rewrite map_map. cbn [clone_face fUID fVerts fMaterial fUVs fNormals].
    pose proof (proj1 S) as Nd. clear S Hk U Ev Hpos. induction F as [|f fi fs faces (_ & A & B & C & D) F IH]; constructor; [|exact IH].
    cbn [fVerts fMaterial fUVs]. split; [reflexivity|]. split; [reflexivity|].
    apply (f_equal (@length _)) in C as Lc. apply (f_equal (@length _)) in A as La. rewrite !map_length in Lc, La.
    unfold moved_uv. eapply move_corners_spec; [exact Nd|exact Hu|exact A|congruence].
Qed.

Lemma all_morphs_spec p m vs fs l : forall ts, all_morphs facet p m vs fs l = Some ts ->
  Forall2 (fun mi t => exists mo, nth_error (pMorphs p) mi = Some mo /\ morph_object facet m vs fs mo = Some t) l ts.
Proof.
  induction l as [|mi l IH]; intros ts E; cbn [all_morphs] in E; [injection E as <-; constructor|].
  destruct (nth_error (pMorphs p) mi) as [mo|] eqn:Em; [|discriminate].
  destruct (morph_object facet m vs fs mo) as [o|] eqn:Eo; [|discriminate].
  destruct (all_morphs facet p m vs fs l) as [os|]; [|discriminate]. injection E as <-. constructor; [eauto|apply IH; reflexivity].
Qed.
Lemma all_morphs_total p m vs fs l : (forall mi, In mi l -> exists mo, nth_error (pMorphs p) mi = Some mo /\ morph_object facet m vs fs mo <> None) ->
  all_morphs facet p m vs fs l <> None.
Proof.
  induction l as [|mi l IH]; intros H; [discriminate|]. cbn [all_morphs].
  destruct (H mi (or_introl eq_refl)) as (mo & -> & E). destruct (morph_object facet m vs fs mo); [|congruence].
  specialize (IH ltac:(intros; apply H; right; assumption)). destruct (all_morphs facet p m vs fs l); [discriminate|congruence].
Qed.

(** One group in the result. *)
Definition Block (p : pmodel T) (os : list (object T)) (sets : list target_list) (l : list nat) (faces : list nat) : Prop :=
  exists pre base ts post src,
    os = pre ++ base :: ts ++ post /\ mesh base = true /\ shows p base src faces /\
    Forall2 (fun mi t => exists mo, nth_error (pMorphs p) mi = Some mo /\ oUID t = 0 /\ mesh t = false /\ oName t = phName mo /\
                          (all_used p faces mo -> morphed p mo base t src)) l ts /\
    In (mkTL (oName base) (map oName ts)) sets.

Lemma prefix_base s : prefix "M_" ("MorphBase" ++ s) = false.
Proof. reflexivity. Qed.

Lemma group_loop_spec p f2m ms : forall fss mg os bw sets os' bw' sets' is,
  group_loop hundred facet shuffle p f2m mg ms fss os bw sets = Some (os', bw', sets') ->
  length ms = length fss -> (forall faces fi, In faces fss -> In fi faces -> nth_error f2m fi = owner (pMats p) 0 fi) ->
  Forall2 (Oinv p) os is -> Winv p bw is ->
  (exists more, os' = os ++ more) /\ (exists more, sets' = sets ++ more) /\
  (exists new, Forall2 (Oinv p) os' (is ++ new) /\ Winv p bw' (is ++ new) /\ flat_map info_faces new = concat fss) /\
  forall g l, nth_error ms g = Some l -> exists faces, nth_error fss g = Some faces /\ Block p os' sets' l faces.
Proof.
  induction ms as [|l ms IH]; intros [|faces fss] mg os bw sets os' bw' sets' is E L Hf O W; try discriminate; cbn [group_loop] in E.
  - injection E as <- <- <-. split; [exists []; rewrite app_nil_r; reflexivity|]. split; [exists []; rewrite app_nil_r; reflexivity|].
    split; [exists []; rewrite app_nil_r; auto|]. intros [|g] l; discriminate.
  - destruct (conv_faces p f2m faces ([], [])) as [[fs [vs m]]|] eqn:E1; [|discriminate].
    destruct (set_weights _ _ _ (shuffle m) _ bw) as [bw1|] eqn:E2; [|discriminate].
    destruct (all_morphs facet p m vs fs l) as [ts|] eqn:E3; [|discriminate].
    destruct (conv_faces_spec _ _ _ _ _ _ _ (state_nil (pVerts p)) E1) as (keys & S & F & Hk). cbn [app] in S, F, Hk.
    pose proof (proj1 (proj2 S)) as Hm. cbn [snd] in Hm. subst m.
    set (name := ("MorphBase" ++ dec mg)%string) in *. set (base := new_object facet name vs fs) in *.
    assert (Hk' : forall v, In v keys <-> corner_of p faces v) by (intros v; rewrite Hk; cbn [In]; tauto).
    destruct (good_shows p f2m keys vs _ fs faces name S F (fun fi => Hf faces fi (or_introl eq_refl))) as (Sh & Re). fold base in Sh, Re.
    rewrite (forall2_len _ _ _ O) in E2.
    pose proof (winv_mesh p bw bw1 is false keys vs faces W S E2) as W1.
    pose proof (winv_targets p (length ts) _ _ W1) as W2. rewrite <- app_assoc in W2.
    apply all_morphs_spec in E3.
    assert (M : Forall2 (fun mi t => exists mo, nth_error (pMorphs p) mi = Some mo /\ oUID t = 0 /\ mesh t = false /\ oName t = phName mo /\
                          (all_used p faces mo -> morphed p mo base t keys)) l ts).
    { clear -S F Hk' E3. induction E3 as [|mi t l ts (mo & A & B) E3 IH]; constructor; [|exact IH].
      exists mo. split; [exact A|]. eapply morph_object_spec; eassumption. }
    assert (O2 : Forall2 (Oinv p) (os ++ base :: ts) (is ++ [IMesh false keys faces] ++ repeat ITarget (length ts))).
    { apply Forall2_app; [exact O|]. cbn [app]. constructor.
      - split; [reflexivity|]. split; [reflexivity|]. split; [exact Sh|]. split; [exact Re|]. intros _. apply prefix_base.
      - clear -M. induction M as [|mi t l ts (mo & _ & A & B & _) M IH]; constructor; [|exact IH]. split; assumption. }
    destruct (IH _ _ _ _ _ _ _ _ _ E ltac:(cbn in L; lia) ltac:(intros; eapply Hf; [right; eassumption|assumption]) O2 W2)
      as ((mo & Hos) & (msets & Hsets) & (new & A & B & C) & D).
    split; [exists ((base :: ts) ++ mo); rewrite Hos, <- app_assoc; reflexivity|].
    split; [exists ([mkTL (oName base) (map oName ts)] ++ msets); rewrite Hsets, <- app_assoc; reflexivity|].
    split.
    + exists (([IMesh false keys faces] ++ repeat ITarget (length ts)) ++ new). rewrite (app_assoc is). split; [exact A|].
      split; [exact B|]. rewrite flat_map_app, C. cbn [app flat_map info_faces concat].
      replace (flat_map info_faces (repeat ITarget (length ts))) with (@nil nat); [rewrite app_nil_r; reflexivity|].
      clear. induction ts as [|t ts IH]; [reflexivity|]. exact IH.
    + intros [|g] l' Hg; [|apply D; exact Hg]. cbn [nth_error] in Hg. injection Hg as <-. exists faces. split; [reflexivity|].
      exists os, base, ts, mo, keys. split; [rewrite Hos, <- app_assoc; reflexivity|]. split; [reflexivity|]. split; [exact Sh|].
      split; [exact M|]. rewrite Hsets. apply in_app_iff. left. apply in_app_iff. right. left. reflexivity.
Qed.

(** *** The whole conversion *)

Lemma winv_init p : Winv p (repeat [] (pNBones p)) [].
Proof.
  split; [apply repeat_length|]. intros b ws Z obj vid. apply zidx_Some in Z as (_ & Z). apply nth_error_In, repeat_spec in Z.
  subst ws. replace (zidx [] (obj - 1)) with (@None info); [reflexivity|]. symmetry. apply zidx_None. cbn. lia.
Qed.

Lemma convert_spec p os bw sets : convert hundred facet shuffle p = Some (os, bw, sets) -> covers p ->
  exists mg2m mg2fs lab os0 is, gen_morph_group p = Some (mg2m, mg2fs) /\ Groups_ok p mg2m mg2fs lab /\
    os = fix_ids 0 os0 /\ Forall2 (Oinv p) os0 is /\ Winv p bw is /\
    Permutation (flat_map info_faces is) (seq 0 (length (pFaces p))) /\
    forall g l, (0 < g)%nat -> nth_error mg2m g = Some l -> exists faces, nth_error mg2fs g = Some faces /\ Block p os0 sets l faces.
Proof.
  intros E (Hc & Ht). unfold convert in E. destruct (gen_morph_group p) as [[mg2m mg2fs]|] eqn:E0; [|discriminate].
  destruct (mat_loop _ _ _ _ _ _ _ _ _ _ _) as [[[os1 bw1] f2m]|] eqn:E1; [|discriminate].
  destruct (group_loop _ _ _ _ _ _ _ _ _ _ _) as [[[os2 bw2] sets2]|] eqn:E2; [|discriminate]. injection E as <- <- <-.
  destruct (gen_spec p mg2m mg2fs E0) as (lab & G).
  destruct (mat_loop_spec p _ (pMats p) [] _ _ _ _ _ _ [] E1 eq_refl Hc) as (new & A & B & C & D & F).
  { apply repeat_length. }
  { intros fi Hfi. cbn in Hfi. lia. }
  { constructor. }
  { apply winv_init. }
  cbn [app total] in *.
  assert (Hsk : forall A (l : list (list A)), skipn 1 l = tl l) by (intros ? []; reflexivity). rewrite !Hsk in E2.
  assert (Hfs : mg2fs = map (fun g => filter (fun x => Nat.eqb (lab x) g) (seq 0 (length (pFaces p)))) (seq 0 (length mg2m))).
  { apply (nth_ext _ _ [] []).
    - rewrite map_length, seq_length. apply (go_len _ _ _ _ G).
    - intros n Hn. rewrite (go_len _ _ _ _ G) in Hn. rewrite (go_faces _ _ _ _ G n Hn). symmetry.
      apply nth_error_nth. rewrite nth_error_map. rewrite nth_error_nth' with (d := O) by (rewrite seq_length; exact Hn).
      rewrite seq_nth by exact Hn. reflexivity. }
  assert (Hbd : forall faces fi, In faces mg2fs -> In fi faces -> (fi < length (pFaces p))%nat).
  { intros faces fi H1 H2. rewrite Hfs in H1. apply in_map_iff in H1 as (g & <- & _). apply filter_In in H2 as (H2 & _).
    apply in_seq in H2. lia. }
  assert (Htl : forall A (x : A) l, In x (tl l) -> In x l) by (intros ? ? []; cbn; auto).
  destruct (group_loop_spec p f2m (tl mg2m) (tl mg2fs) _ _ _ _ _ _ _ new E2) as (_ & _ & (new2 & A2 & B2 & C2) & D2).
  { pose proof (go_len _ _ _ _ G). destruct mg2m, mg2fs; cbn in *; lia. }
  { intros faces fi H1 H2. apply D. rewrite Ht. eapply Hbd; [apply Htl; exact H1|exact H2]. }
  { exact A. }
  { exact B. }
  exists mg2m, mg2fs, lab, os2, (new ++ new2). split; [reflexivity|]. split; [exact G|]. split; [reflexivity|].
  split; [exact A2|]. split; [exact B2|]. split.
  - rewrite flat_map_app, F, C2. rewrite Ht.
    assert (Hb : filter (fun i => nmem i (nth 0 mg2fs [])) (seq 0 (length (pFaces p))) = nth 0 mg2fs []).
    { rewrite (go_faces _ _ _ _ G O (go_pos _ _ _ _ G)). apply filter_ext_in. intros x Hx. apply eq_true_iff_eq. rewrite nmem_In, filter_In. tauto. }
    rewrite Hb. replace (nth 0 mg2fs [] ++ concat (tl mg2fs)) with (concat mg2fs).
    + rewrite Hfs. apply partition_perm. apply (go_lab _ _ _ _ G).
    + pose proof (go_len _ _ _ _ G). pose proof (go_pos _ _ _ _ G). destruct mg2fs; [cbn in *; lia|reflexivity].
  - intros [|g] l Hg Hl; [lia|]. destruct mg2m as [|x mg2m]; [destruct g; discriminate|]. cbn [nth_error tl] in *.
    destruct (D2 g l Hl) as (faces & X & Y). exists faces. split; [|exact Y]. destruct mg2fs as [|y mg2fs]; [destruct g; discriminate|exact X].
Qed.

Lemma fix_ids_mesh (os : list (object T)) : forall i, all_faces (filter mesh (fix_ids i os)) = all_faces (filter mesh os).
Proof.
  unfold all_faces. induction os as [|o os IH]; intros i; [reflexivity|]. cbn [fix_ids filter].
  set (o' := if oUID o =? 0 then set_uid o (i + 1) else o).
  assert (H1 : mesh o' = mesh o) by (unfold o'; destruct (oUID o =? 0); reflexivity).
  assert (H2 : map (resolve o') (oFaces o') = map (resolve o) (oFaces o)) by (unfold o'; destruct (oUID o =? 0); reflexivity).
  rewrite H1. destruct (mesh o); [|apply IH]. cbn [flat_map]. rewrite H2, IH. reflexivity.
Qed.

Lemma convert_faces p os bw sets : convert hundred facet shuffle p = Some (os, bw, sets) -> covers p ->
  Permutation (all_faces (filter mesh os)) (map (source p) (seq 0 (length (pFaces p)))).
Proof.
  intros E C. destruct (convert_spec _ _ _ _ E C) as (_ & _ & _ & os0 & is & _ & _ & -> & O & _ & P & _).
  rewrite fix_ids_mesh.
  assert (K : all_faces (filter mesh os0) = map (source p) (flat_map info_faces is)).
  { clear -O. unfold all_faces. induction O as [|o i os is (_ & H) O IH]; [reflexivity|]. cbn [filter flat_map].
    destruct i as [k src fsrc|]; cbn [info_faces].
    - destruct H as (-> & _ & H & _). cbn [flat_map]. rewrite H, IH, map_app. reflexivity.
    - rewrite H, IH. reflexivity. }
  rewrite K. apply Permutation_map. exact P.
Qed.

(** *** Totality *)

Lemma state_valid vs keys st v : State (T := T) vs keys st -> In v keys -> 0 <= v < Z.of_nat (length vs).
Proof.
  intros (_ & _ & E) Hv. apply (in_map (pos_of vs)) in Hv. rewrite <- E in Hv.
  apply in_map_iff in Hv as (x & Hx & _). unfold pos_of in Hx. destruct (zidx vs v) eqn:Z; [|discriminate].
  apply zidx_bound in Z. exact Z.
Qed.
Lemma store_weights_length c : forall (bw bw1 : bone_weights (T := T)) obj vid, store_weights bw c obj vid = Some bw1 -> length bw1 = length bw.
Proof.
  induction c as [|[b w] c IH]; intros bw bw1 obj vid E; cbn [store_weights] in E; [injection E as <-; reflexivity|].
  destruct (zidx bw b); [|discriminate]. apply IH in E. rewrite E. apply list_set_length.
Qed.
Lemma set_weights_length more vs entries : forall obj (bw bw1 : bone_weights (T := T)), set_weights more hundred vs entries obj bw = Some bw1 -> length bw1 = length bw.
Proof.
  induction entries as [|[pv mv] entries IH]; intros obj bw bw1 E; cbn [set_weights] in E; [injection E as <-; reflexivity|].
  destruct (zidx vs pv); [|discriminate]. destruct (vertex_weights _ _ _ _ _); [|discriminate].
  destruct (store_weights bw _ _ _) eqn:Es; [|discriminate]. apply IH in E. apply store_weights_length in Es. congruence.
Qed.
Lemma weights_ok p keys st more obj bw : proper p -> State (pVerts p) keys st -> snd st = kmap 0 keys -> length bw = pNBones p ->
  set_weights more hundred (pVerts p) (shuffle (kmap 0 keys)) obj bw <> None.
Proof.
  intros P S _ L. apply set_weights_total; [rewrite L; apply (pr_bones _ P)|].
  intros [v k] He. apply (Permutation_in _ (shuffle_perm _)) in He. apply kmap_entries in He as (_ & He).
  apply zidx_Some in He as (_ & He). apply nth_error_In in He. exact (state_valid _ _ _ _ S He).
Qed.

Lemma mat_loop_total p base rest : forall done os (bw : bone_weights (T := T)) f2m,
  pMats p = done ++ rest -> proper p -> length f2m = length (pFaces p) -> length bw = pNBones p ->
  exists r, mat_loop hundred facet shuffle p base (Z.of_nat (length done)) (Z.of_nat (total done)) rest os bw f2m = Some r /\
            length (snd (fst r)) = pNBones p.
Proof.
  induction rest as [|mat rest IH]; intros done os bw f2m Hp P L Lb; cbn [mat_loop].
  - eexists. split; [reflexivity|exact Lb].
  - destruct (pr_covers _ P) as (Hc & Ht).
    assert (Hcnt : 0 <= pmCount mat).
    { rewrite Hp in Hc. apply Forall_app in Hc as (_ & Hc). inversion Hc; assumption. }
    rewrite Z.quot_div_nonneg by lia. set (cnt := pmCount mat / 3) in *.
    assert (Hcn : 0 <= cnt) by (apply Z.div_pos; lia).
    rewrite Hp, total_app in Ht. cbn [total] in Ht. fold cnt in Ht.
    pose proof (set_range_total (Z.to_nat cnt) f2m (Z.of_nat (total done)) (Z.of_nat (length done)) ltac:(lia) ltac:(lia)) as T1.
    destruct (set_range f2m (Z.of_nat (total done)) (Z.to_nat cnt) (Z.of_nat (length done))) as [f2m1|] eqn:E1; [|congruence].
    apply set_range_spec in E1 as (L1 & _ & _). rewrite range_faces_spec by lia. rewrite Nat2Z.id.
    set (faces := filter (fun i => nmem i base) (seq (total done) (Z.to_nat cnt))).
    pose proof (conv_faces_total p f2m1 faces ([], []) (pr_faces _ P) ltac:(congruence)) as T2.
    assert (Hb : forall fi, In fi faces -> (fi < length (pFaces p))%nat).
    { intros fi H. apply filter_In in H as (H & _). apply in_seq in H. lia. }
    specialize (T2 Hb). destruct (conv_faces p f2m1 faces ([], [])) as [[fs [vs m]]|] eqn:E2; [|congruence].
    replace (Z.of_nat (length done) + 1) with (Z.of_nat (length (done ++ [mat]))) by (rewrite app_length; cbn; lia).
    replace (Z.of_nat (total done) + cnt) with (Z.of_nat (total (done ++ [mat]))) by (rewrite total_app; cbn [total]; fold cnt; lia).
    assert (Hp' : pMats p = (done ++ [mat]) ++ rest) by (rewrite <- app_assoc; exact Hp).
    destruct (_ && _); [apply IH; auto; congruence|].
    destruct (conv_faces_spec _ _ _ _ _ _ _ (state_nil (pVerts p)) E2) as (keys & S & _ & _). cbn [app] in S.
    pose proof (proj1 (proj2 S)) as Hm. cbn [snd] in Hm. subst m.
    pose proof (weights_ok p keys _ (nmul hundred) (Z.of_nat (length os) + 1) bw P S eq_refl Lb) as T3.
    destruct (set_weights _ _ _ _ _ bw) as [bw1|] eqn:E3; [|congruence]. apply set_weights_length in E3.
    apply IH; auto; congruence.
Qed.

Lemma group_loop_total p f2m ms : forall fss mg os bw sets, proper p -> length f2m = length (pFaces p) -> length bw = pNBones p ->
  length ms = length fss -> (forall faces fi, In faces fss -> In fi faces -> (fi < length (pFaces p))%nat) ->
  (forall g l faces mi, nth_error ms g = Some l -> nth_error fss g = Some faces -> In mi l ->
     exists mo t, nth_error (pMorphs p) mi = Some mo /\ corner_of p faces t) ->
  group_loop hundred facet shuffle p f2m mg ms fss os bw sets <> None.
Proof.
  induction ms as [|l ms IH]; intros [|faces fss] mg os bw sets P L Lb Lm Hb Hg; try discriminate. cbn [group_loop].
  pose proof (conv_faces_total p f2m faces ([], []) (pr_faces _ P) L (fun fi => Hb faces fi (or_introl eq_refl))) as T1.
  destruct (conv_faces p f2m faces ([], [])) as [[fs [vs m]]|] eqn:E1; [|congruence].
  destruct (conv_faces_spec _ _ _ _ _ _ _ (state_nil (pVerts p)) E1) as (keys & S & F & Hk). cbn [app] in S, F, Hk.
  pose proof (proj1 (proj2 S)) as Hm. cbn [snd] in Hm. subst m.
  pose proof (weights_ok p keys _ (fun w => w) (Z.of_nat (length os) + 1) bw P S eq_refl Lb) as T3.
  destruct (set_weights _ _ _ _ _ bw) as [bw1|] eqn:E3; [|congruence]. apply set_weights_length in E3.
  assert (T4 : all_morphs facet p (kmap 0 keys) vs fs l <> None).
  { apply all_morphs_total. intros mi Hmi. destruct (Hg O l faces mi eq_refl eq_refl Hmi) as (mo & t & A & B).
    exists mo. split; [exact A|]. unfold morph_object.
    assert (Hv : (0 < length keys)%nat).
    { assert (In t keys) by (apply Hk; right; exact B). destruct keys; [contradiction|cbn; lia]. }
    pose proof (state_length _ _ _ S) as Ls. cbn [fst] in Ls.
    pose proof (move_vertices_total (kmap 0 keys) (phVerts mo) vs) as T5.
    destruct (move_vertices (kmap 0 keys) vs (phVerts mo)); [discriminate|]. exfalso. apply T5; [|reflexivity].
    intros e _. unfold map_at. destruct (assoc (kmap 0 keys) (fst e)) as [k|] eqn:Ek; [|lia].
    apply kmap_assoc in Ek as (_ & Ek). apply zidx_bound in Ek. lia. }
  destruct (all_morphs facet p (kmap 0 keys) vs fs l) as [ts|]; [|congruence].
  apply IH; [exact P|exact L|congruence|cbn in Lm; lia|intros; eapply Hb; [right; eassumption|assumption]|].
  intros g l' f' mi A B. apply (Hg (Datatypes.S g)); assumption.
Qed.

Lemma convert_total p : proper p -> convert hundred facet shuffle p <> None.
Proof.
  intros P. unfold convert. pose proof (gen_total p P) as T0.
  destruct (gen_morph_group p) as [[mg2m mg2fs]|] eqn:E0; [|congruence].
  destruct (gen_spec p mg2m mg2fs E0) as (lab & G).
  destruct (mat_loop_total p (nth 0 mg2fs []) (pMats p) [] [] (repeat [] (pNBones p)) (repeat 0 (length (pFaces p))) eq_refl P) as ([[os bw] f2m] & E1 & L1).
  { apply repeat_length. } { apply repeat_length. }
  pose proof E1 as E1'. cbn [length total Z.of_nat] in E1. rewrite E1.
  destruct (pr_covers _ P) as (Hc & Ht).
  destruct (mat_loop_spec p _ (pMats p) [] _ _ _ _ _ _ [] E1' eq_refl Hc) as (new & A & B & C & D & F).
  { apply repeat_length. } { intros fi Hfi. exfalso. inversion Hfi. } { constructor. } { apply winv_init. }
  assert (Hsk : forall A (l : list (list A)), skipn 1 l = tl l) by (intros ? []; reflexivity). rewrite !Hsk.
  assert (Hfs : forall g, (g < length mg2m)%nat -> nth g mg2fs [] = filter (fun x => Nat.eqb (lab x) g) (seq 0 (length (pFaces p))))
    by (intros; apply (go_faces _ _ _ _ G); assumption).
  assert (Hnth : forall g faces, nth_error (tl mg2fs) g = Some faces -> nth (S g) mg2fs [] = faces /\ (S g < length mg2m)%nat).
  { intros g faces H. rewrite <- (go_len _ _ _ _ G). destruct mg2fs as [|x mg2fs]; [destruct g; discriminate|]. cbn [tl] in H. split.
    - apply nth_error_nth. exact H.
    - cbn [length]. apply -> Nat.succ_lt_mono. apply nth_error_Some. congruence. }
  pose proof (group_loop_total p f2m (tl mg2m) (tl mg2fs) 1 os bw [] P C L1) as T2.
  destruct (group_loop _ _ _ _ _ _ _ _ _ _ _) as [[[os2 bw2] sets2]|]; [discriminate|]. exfalso. apply T2; [| | |reflexivity].
  - assert (Htl : forall A (l : list A), length (tl l) = pred (length l)) by (intros ? []; reflexivity).
    rewrite !Htl. f_equal. symmetry. apply (go_len _ _ _ _ G).
  - intros faces fi H1 H2. apply In_nth_error in H1 as (g & H1). apply Hnth in H1 as (<- & H3). rewrite Hfs in H2 by exact H3.
    apply filter_In in H2 as (H2 & _). apply in_seq in H2. lia.
  - intros g l faces mi H1 H2 H3. apply Hnth in H2 as (<- & H4).
    assert (H5 : In mi (nth (S g) mg2m [])).
    { destruct mg2m as [|x mg2m]; [destruct g; discriminate|]. cbn [tl nth] in *. rewrite (nth_error_nth _ _ [] H1). exact H3. }
    destruct (go_morph _ _ _ _ G _ _ H5) as (m & M1 & (t & fi & U1 & U2 & U3) & _ & M2). exists m, t. split; [exact M1|].
    exists fi. split; [|exact U3]. rewrite Hfs by exact H4. apply filter_In. split; [apply in_seq; lia|].
    apply Nat.eqb_eq. eapply M2; eassumption.
Qed.

(** Materials that claim too many faces. *)
Lemma mat_loop_overrun p base rest : forall done os (bw : bone_weights (T := T)) f2m,
  Forall (fun m => 0 <= pmCount m) rest -> (length f2m < total done + total rest)%nat -> (total done <= length f2m)%nat ->
  mat_loop hundred facet shuffle p base (Z.of_nat (length done)) (Z.of_nat (total done)) rest os bw f2m = None.
Proof.
  induction rest as [|mat rest IH]; intros done os bw f2m Hc L H; cbn [mat_loop total] in *; [lia|].
  inversion Hc; subst. rewrite Z.quot_div_nonneg by lia. set (cnt := pmCount mat / 3) in *.
  assert (Hcn : 0 <= cnt) by (apply Z.div_pos; lia).
  destruct (Nat.le_gt_cases (total done + Z.to_nat cnt) (length f2m)) as [Le|Gt].
  - pose proof (set_range_total (Z.to_nat cnt) f2m (Z.of_nat (total done)) (Z.of_nat (length done)) ltac:(lia) ltac:(lia)) as T1.
    destruct (set_range f2m (Z.of_nat (total done)) (Z.to_nat cnt) (Z.of_nat (length done))) as [f2m1|] eqn:E1; [|congruence].
    apply set_range_spec in E1 as (L1 & _ & _).
    replace (Z.of_nat (length done) + 1) with (Z.of_nat (length (done ++ [mat]))) by (rewrite app_length; cbn; lia).
    assert (Hd : total (done ++ [mat]) = (total done + Z.to_nat cnt)%nat) by (rewrite total_app; cbn [total]; fold cnt; lia).
    replace (Z.of_nat (total done) + cnt) with (Z.of_nat (total (done ++ [mat]))) by lia.
    destruct (conv_faces p f2m1 _ ([], [])) as [[fs [vs m]]|]; [|reflexivity].
    destruct (_ && _); [apply IH; [assumption|lia|lia]|].
    destruct (set_weights _ _ _ _ _ bw); [|reflexivity]. apply IH; [assumption|lia|lia].
  - rewrite set_range_none; [reflexivity|lia|lia].
Qed.
Lemma convert_overrun p : Forall (fun m => 0 <= pmCount m) (pMats p) -> (length (pFaces p) < total (pMats p))%nat ->
  convert hundred facet shuffle p = None.
Proof.
  intros Hc L. unfold convert. destruct (gen_morph_group p) as [[mg2m mg2fs]|]; [|reflexivity].
  pose proof (mat_loop_overrun p (nth 0 mg2fs []) (pMats p) [] [] (repeat [] (pNBones p)) (repeat 0 (length (pFaces p))) Hc) as E.
  rewrite repeat_length in E. specialize (E L ltac:(cbn; lia)). cbn [length total Z.of_nat] in E. rewrite E. reflexivity.
Qed.

(** *** Morphs *)

Lemma fix_ids_app (a b : list (object T)) : forall i, fix_ids i (a ++ b) = fix_ids i a ++ fix_ids (i + Z.of_nat (length a)) b.
Proof.
  induction a as [|o a IH]; intros i; cbn [app fix_ids length]; [rewrite Z.add_0_r; reflexivity|].
  rewrite IH. replace (i + Z.of_nat (S (length a))) with (i + 1 + Z.of_nat (length a)) by lia. reflexivity.
Qed.
Lemma fix_ids_names (os : list (object T)) : forall i, map oName (fix_ids i os) = map oName os.
Proof. induction os as [|o os IH]; intros i; [reflexivity|]. cbn [fix_ids map]. rewrite IH. destruct (oUID o =? 0); reflexivity. Qed.

Lemma convert_morph p os bw sets mi m : convert hundred facet shuffle p = Some (os, bw, sets) -> covers p ->
  nth_error (pMorphs p) mi = Some m -> morph_targets_of m <> [] ->
  (forall v, In v (morph_targets_of m) -> exists fi, (fi < length (pFaces p))%nat /\ In v (nth fi (pFaces p) [])) ->
  exists pre base ts1 t ts2 post src fsrc,
    os = pre ++ base :: ts1 ++ t :: ts2 ++ post /\
    mesh base = true /\ Forall (fun o => mesh o = false) (ts1 ++ t :: ts2) /\
    shows p base src fsrc /\ morphed p m base t src /\
    (forall v fi, In v (morph_targets_of m) -> (fi < length (pFaces p))%nat -> In v (nth fi (pFaces p) []) -> In fi fsrc) /\
    In (mkTL (oName base) (map oName (ts1 ++ t :: ts2))) sets.
Proof.
  intros E C Hm Hne Hu. destruct (convert_spec _ _ _ _ E C) as (mg2m & mg2fs & lab & os0 & is & _ & G & -> & _ & _ & _ & D).
  assert (U : used p m).
  { destruct (morph_targets_of m) as [|t l] eqn:Et; [congruence|]. destruct (Hu t) as (fi & A & B); [left; reflexivity|].
    exists t, fi. rewrite Et. split; [left; reflexivity|]. auto. }
  destruct (go_all _ _ _ _ G mi m Hm U) as (g & Hg).
  destruct (go_morph _ _ _ _ G _ _ Hg) as (m' & M1 & _ & M3 & M4). assert (m' = m) as -> by congruence.
  assert (Hl : nth_error mg2m g = Some (nth g mg2m [])) by (apply nth_error_nth'; lia).
  destruct (D g _ ltac:(lia) Hl) as (faces & Hf & pre & base & ts & post & src & Eo & Hb & Sh & F & Hs).
  assert (Hfaces : forall v fi, In v (morph_targets_of m) -> (fi < length (pFaces p))%nat -> In v (nth fi (pFaces p) []) -> In fi faces).
  { intros v fi A B C'. apply (nth_error_nth _ _ []) in Hf. rewrite <- Hf. rewrite (go_faces _ _ _ _ G) by lia.
    apply filter_In. split; [apply in_seq; lia|]. apply Nat.eqb_eq. eapply M4; eassumption. }
  assert (Ha : all_used p faces m).
  { intros t Ht. destruct (Hu t Ht) as (fi & A & B). exists fi. split; [eapply Hfaces; eassumption|exact B]. }
  apply in_split in Hg as (l1 & l2 & El). rewrite El in F. apply Forall2_app_inv_l in F as (ts1 & tr & F1 & F2 & ->).
  inversion F2 as [|? t ? ts2 (m2 & N1 & N2 & N3 & N4 & N5) F3]; subst. assert (m2 = m) as -> by congruence.
  specialize (N5 Ha).
  set (L := (fun o => mesh o = false) : object T -> Prop).
  assert (Hmesh : Forall L (ts1 ++ t :: ts2)).
  { apply Forall_app. split; [|constructor; [exact N3|]].
    - clear -F1. induction F1 as [|? ? ? ? (? & _ & _ & H & _) F1 IH]; constructor; assumption.
    - clear -F3. induction F3 as [|? ? ? ? (? & _ & _ & H & _) F3 IH]; constructor; assumption. }
  set (n1 := Z.of_nat (length pre)).
  set (base' := if oUID base =? 0 then set_uid base (0 + n1 + 1) else base).
  set (n2 := 0 + n1 + 1 + Z.of_nat (length ts1)).
  set (t' := if oUID t =? 0 then set_uid t (n2 + 1) else t).
  exists (fix_ids 0 pre), base', (fix_ids (0 + n1 + 1) ts1), t', (fix_ids (n2 + 1) ts2), (fix_ids (n2 + 1 + Z.of_nat (length ts2)) post), src, faces.
  assert (Keep : forall (o : object T) u, let o' := if oUID o =? 0 then set_uid o u else o in
     oName o' = oName o /\ oVerts o' = oVerts o /\ oFaces o' = oFaces o /\ mesh o' = mesh o /\ oDepth o' = oDepth o /\ oVisible o' = oVisible o)
    by (intros o u; cbn zeta; destruct (oUID o =? 0); repeat split; reflexivity).
  destruct (Keep base (0 + n1 + 1)) as (B1 & B2 & B3 & B4 & _). destruct (Keep t (n2 + 1)) as (T1 & T2 & T3 & T4 & T5 & T6).
  fold base' in B1, B2, B3, B4. fold t' in T1, T2, T3, T4, T5, T6.
  assert (Hnm : map oName (fix_ids (0 + n1 + 1) ts1 ++ t' :: fix_ids (n2 + 1) ts2) = map oName (ts1 ++ t :: ts2)).
  { rewrite !map_app. cbn [map]. rewrite !fix_ids_names, T1. reflexivity. }
  split.
  { rewrite fix_ids_app. fold n1. cbn [fix_ids]. fold base'. rewrite <- app_assoc. cbn [app]. rewrite fix_ids_app. fold n2. cbn [fix_ids]. fold t'.
    rewrite fix_ids_app. reflexivity. }
  split; [rewrite B4; exact Hb|]. split.
  { apply Forall_app in Hmesh as (Q1 & Q2). inversion Q2 as [|? ? Q3 Q4]; subst.
    assert (Q : forall l i, Forall L l -> Forall L (fix_ids i l)).
    { clear. induction l as [|o l IH]; intros i H; [constructor|]. inversion H; subst. cbn [fix_ids]. constructor; [|apply IH; assumption].
      unfold L. destruct (oUID o =? 0); assumption. }
    apply Forall_app. split; [apply Q; exact Q1|]. constructor; [unfold L; rewrite T4; exact Q3|apply Q; exact Q4]. }
  split. { unfold shows. rewrite B2, B3. exact Sh. }
  split. { unfold morphed in *. rewrite T1, T2, T3, T5, T6, B2, B3. exact N5. }
  split; [exact Hfaces|]. rewrite Hnm, B1. exact Hs.
Qed.

(** *** Weights *)

Lemma expected_more k x b : k = true \/ (length (weights_for x b) <= 1)%nat -> expected (more_of k) hundred x b = percent hundred (weights_for x b).
Proof.
  unfold expected, percent. generalize (weights_for x b). intros [|w r] H; [reflexivity|]. cbn [fold_left].
  unfold add_one at 2. destruct k.
  - cbn [more_of]. clear H. generalize (nmul hundred w). induction r as [|y r IH]; intros a; [reflexivity|]. cbn [fold_left]. apply IH.
  - destruct r; [reflexivity|]. destruct H as [H|H]; [discriminate|cbn in H; lia].
Qed.

Lemma convert_weights p os bw sets k o b ws : convert hundred facet shuffle p = Some (os, bw, sets) -> covers p ->
  nth_error os k = Some o -> zidx bw b = Some ws ->
  oUID o = Z.of_nat k + 1 /\
  (mesh o = false -> forall vid, stored ws (oUID o) vid = []) /\
  (mesh o = true -> exists src fsrc, shows p o src fsrc /\
     forall vid, match zidx src (vid - 1) with
                 | Some pv => exists v, zidx (pVerts p) pv = Some v /\
                     (prefix "M_" (oName o) = true \/ (length (weights_for v b) <= 1)%nat ->
                      stored ws (oUID o) vid = percent hundred (weights_for v b))
                 | None => stored ws (oUID o) vid = []
                 end).
Proof.
  intros E C Ho Hb. destruct (convert_spec _ _ _ _ E C) as (_ & _ & _ & os0 & is & _ & _ & -> & O & (_ & W) & _).
  rewrite fix_ids_nth in Ho. destruct (nth_error os0 k) as [o0|] eqn:Ek; [|discriminate]. cbn [option_map] in Ho.
  assert (exists i, nth_error is k = Some i /\ Oinv p o0 i) as (i & Ei & Hu & Hi).
  { clear -O Ek. revert k Ek. induction O as [|a c os is H O IH]; intros [|k] Ek; try discriminate.
    - cbn in Ek. injection Ek as <-. exists c. auto.
    - apply IH. exact Ek. }
  rewrite Hu in Ho. cbn [Z.eqb] in Ho. injection Ho as <-. specialize (W b ws Hb).
  assert (Z : forall vid, stored ws (oUID (set_uid o0 (0 + Z.of_nat k + 1))) vid = exp_w p i b vid).
  { intros vid. rewrite W. replace (oUID _ - 1) with (Z.of_nat k) by (cbn; lia). unfold zidx.
    destruct (Z.ltb_spec (Z.of_nat k) 0); [lia|]. rewrite Nat2Z.id, Ei. reflexivity. }
  split; [cbn; lia|]. destruct i as [kk src fsrc|].
  - destruct Hi as (H1 & H2 & H3 & H4). split; [intros Hf; change (mesh o0 = false) in Hf; congruence|]. intros _.
    exists src, fsrc. split; [exact H2|]. intros vid. rewrite Z. cbn [exp_w].
    destruct (zidx src (vid - 1)) as [pv|] eqn:Ev; [|reflexivity].
    assert (exists v, zidx (pVerts p) pv = Some v) as (v & Hv).
    { destruct H2 as (_ & H2 & _). apply zidx_Some in Ev as (_ & Ev). apply nth_error_In in Ev.
      apply (in_map (fun v => option_map (fun x => flip_z (pvPos x)) (zidx (pVerts p) v))) in Ev. rewrite <- H2 in Ev.
      apply in_map_iff in Ev as (x & Hx & _). destruct (zidx (pVerts p) pv) as [v|]; [eauto|discriminate]. }
    exists v. split; [exact Hv|]. rewrite Hv. intros [Hp|Hl].
    + apply expected_more. left. destruct kk; [reflexivity|]. specialize (H4 eq_refl). change (prefix "M_" (oName o0) = true) in Hp. congruence.
    + apply expected_more. right. exact Hl.
  - split; [intros _ vid; apply Z|]. intros Hm. change (mesh o0 = true) in Hm. congruence.
Qed.
End Main.
