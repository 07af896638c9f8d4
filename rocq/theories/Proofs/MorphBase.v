(** Where a morph moves the vertices, when its name occurs in one target list. *)
From Coq Require Import String List ZArith Arith Lia Bool Reals Lra.
From Verif.Model Require Import Num NumR Vec Matrix Mqo MqoDoc.
From Verif.Proofs Require Import MatrixLemmas MorphProofs.
Import ListNotations.
Local Open Scope nat_scope.

Section Base.
Context {T : Type} {N : Num T}.
Implicit Types (os : list (object T)).

Lemma byname_name os n k : obj_by_name os n = Some k -> exists o, nth_error os k = Some o /\ oName o = n.
Proof.
  intro E. destruct (last_index_some _ _ _ E) as [[o [Eo Q]] _]. apply String.eqb_eq in Q. eauto.
Qed.
Lemma byname_inj os n1 n2 k : obj_by_name os n1 = Some k -> obj_by_name os n2 = Some k -> n1 = n2.
Proof.
  intros E1 E2. destruct (byname_name _ _ _ E1) as [o1 [H1 <-]]. destruct (byname_name _ _ _ E2) as [o2 [H2 <-]]. congruence.
Qed.

(** The shift every moved object gets. *)
Definition morph_diff (bo to_ : object T) (v : T) : list (vec3 T) :=
  map (fun p => v3scale (v3sub (fst p) (snd p)) v) (combine (oVerts to_) (oVerts bo)).

Lemma morph_one os ms1 m ms2 name v ts1 ts2 b t bo to_ :
  (forall m', In m' (ms1 ++ ms2) -> ~ In name (tlTargets m')) ->
  tlTargets m = ts1 ++ name :: ts2 -> NoDup (tlTargets m) -> ~ In (tlBase m) (tlTargets m) ->
  obj_by_name os (tlBase m) = Some b -> obj_by_name os name = Some t ->
  nth_error os b = Some bo -> nth_error os t = Some to_ -> length (oVerts bo) = length (oVerts to_) ->
  exists os', morph_lists os (ms1 ++ m :: ms2) name v false = Some (os', true) /\ length os' = length os /\
    nth_error os' b = Some (shift_verts (morph_diff bo to_ v) bo) /\
    nth_error os' t = Some to_ /\
    (forall k o n, n <> name -> In n (tlTargets m) -> obj_by_name os n = Some k -> nth_error os k = Some o ->
       nth_error os' k = Some (if Nat.eqb (length (oVerts o)) (length (oVerts to_))
                               then shift_verts (morph_diff bo to_ v) o else o)) /\
    (forall k, k <> b -> (forall n, In n (tlTargets m) -> obj_by_name os n <> Some k) -> nth_error os' k = nth_error os k).
Proof.
  intros Hm Et ND Nb Eb Ent Eob Eot L.
  assert (Sp : ~ In name ts1 /\ ~ In name ts2).
  { rewrite Et in ND. apply NoDup_remove_2 in ND. split; intro; apply ND; apply in_or_app; auto. }
  rewrite (lists_one ms1 m ms2 name v ts1 ts2 os Hm Et (proj1 Sp) (proj2 Sp)).
  assert (Etg : nth_error (tlTargets m) (length ts1) = Some name).
  { rewrite Et, nth_error_app2, Nat.sub_diag by lia. reflexivity. }
  assert (Idx : forall j, nth_error (tlTargets m) j = Some name -> j = length ts1).
  { intros j Ej. apply (proj1 (NoDup_nth_error _) ND); [apply nth_error_Some; congruence | congruence]. }
  destruct (apply_cases os m (length ts1) v name Etg) as
    [[b' [t' [bo' [to' [os' [Eb' [Ent' [Eob' [Eot' [L' [Er [Len A]]]]]]]]]]]] | [NA _]].
  2:{ exfalso. apply NA. exists b, t, bo, to_. auto. }
  assert (b' = b) as -> by congruence. assert (t' = t) as -> by congruence.
  assert (bo' = bo) as -> by congruence. assert (to' = to_) as -> by congruence.
  exists os'. split; [exact Er|]. split; [exact Len|]. fold (morph_diff bo to_ v) in A.
  assert (Tn : In name (tlTargets m)) by (rewrite Et; apply in_or_app; right; left; reflexivity).
  assert (Bt : b <> t).
  { intros <-. assert (X := byname_inj _ _ _ _ Eb Ent). apply Nb. rewrite X. exact Tn. }
  split; [|split; [|split]].
  - rewrite A, Eob. cbn. rewrite Nat.eqb_refl.
    rewrite (hits_1 _ b _ b _ 0 (length ts1) name Etg); [reflexivity | cbn; rewrite Nat.eqb_refl; reflexivity|].
    intros j x Nj Ej. cbn. destruct (Nat.eqb_spec j (length ts1)); [contradiction|].
    intro X. apply Nb. rewrite (byname_inj _ _ _ _ Eb X). eapply nth_error_In; exact Ej.
  - rewrite A, Eot. cbn. rewrite hits_0; [destruct (Nat.eqb _ _); reflexivity|].
    intros j x Ej. cbn. destruct (Nat.eqb_spec j (length ts1)) as [->|Nj]; [congruence|].
    intro X. apply Nj, Idx. rewrite Ej. f_equal. exact (byname_inj _ _ _ _ X Ent).
  - intros k o n Nn Hn Ek Eo. rewrite A, Eo. cbn. rewrite <- L.
    destruct (Nat.eqb (length (oVerts o)) (length (oVerts bo))); [|reflexivity]. do 1 f_equal.
    apply In_nth_error in Hn. destruct Hn as [j0 Ej0].
    rewrite (hits_1 _ b _ k _ 0 j0 n Ej0); [reflexivity| |].
    + cbn. destruct (Nat.eqb_spec j0 (length ts1)) as [->|]; [congruence | exact Ek].
    + intros j x Nj Ej. cbn. destruct (Nat.eqb_spec j (length ts1)) as [->|].
      * intro X. injection X as <-. assert (Y := byname_inj _ _ _ _ Eb Ek). apply Nb. rewrite Y. eapply nth_error_In; exact Ej0.
      * intro X. assert (Y := byname_inj _ _ _ _ X Ek). subst x. apply Nj.
        apply (proj1 (NoDup_nth_error _) ND); [apply nth_error_Some; congruence | congruence].
  - intros k Nk Hk. rewrite A. destruct (nth_error os k) as [o|]; [|reflexivity]. cbn. f_equal.
    rewrite hits_0; [destruct (Nat.eqb _ _); reflexivity|].
    intros j x Ej. cbn. destruct (Nat.eqb_spec j (length ts1)); [congruence|]. apply Hk. eapply nth_error_In; exact Ej.
Qed.

Lemma shift_nth diff (o : object T) i x d : nth_error (oVerts o) i = Some x -> nth_error diff i = Some d ->
  nth_error (oVerts (shift_verts diff o)) i = Some (v3add x d).
Proof.
  unfold shift_verts; cbn. generalize (oVerts o); intro l; revert diff l.
  induction i as [|i IH]; intros [|d0 diff] [|x0 l] E1 E2; cbn in *; try discriminate.
  - injection E1 as <-. injection E2 as <-. reflexivity.
  - apply IH; assumption.
Qed.
Lemma diff_nth (bo to_ : object T) v i x y : nth_error (oVerts bo) i = Some x -> nth_error (oVerts to_) i = Some y ->
  nth_error (morph_diff bo to_ v) i = Some (v3scale (v3sub y x) v).
Proof.
  unfold morph_diff. generalize (oVerts bo) (oVerts to_); intros l1 l2; revert l1 l2.
  induction i as [|i IH]; intros [|a l1] [|c l2] E1 E2; cbn in *; try discriminate.
  - congruence.
  - apply IH; assumption.
Qed.
Lemma shift_base bo to_ v i x y : nth_error (oVerts bo) i = Some x -> nth_error (oVerts to_) i = Some y ->
  nth_error (oVerts (shift_verts (morph_diff bo to_ v) bo)) i = Some (v3add x (v3scale (v3sub y x) v)).
Proof. intros E1 E2. apply shift_nth; [exact E1 | apply diff_nth; assumption]. Qed.
Lemma morph_diff_length bo to_ v : length (oVerts bo) = length (oVerts to_) -> length (morph_diff bo to_ v) = length (oVerts bo).
Proof. intro E. unfold morph_diff. rewrite map_length, combine_length. lia. Qed.
End Base.

(** Exact reals: value 0 is the identity, value 1 gives the target. *)
Lemma list_nth_eq {A} (l1 l2 : list A) : length l1 = length l2 ->
  (forall i x y, nth_error l1 i = Some x -> nth_error l2 i = Some y -> x = y) -> l1 = l2.
Proof.
  revert l2; induction l1 as [|a l1 IH]; intros [|b l2] L H; try discriminate; [reflexivity|].
  f_equal; [exact (H 0 a b eq_refl eq_refl) | apply IH; [cbn in L; lia | intro i; exact (H (S i))]].
Qed.
Lemma shift_base_value (bo to_ : object R) (v : R) (val : vec3 R -> vec3 R -> vec3 R) :
  length (oVerts bo) = length (oVerts to_) ->
  (forall x y, v3add x (v3scale (v3sub y x) v) = val x y) ->
  oVerts (shift_verts (morph_diff bo to_ v) bo) = map (fun p => val (fst p) (snd p)) (combine (oVerts bo) (oVerts to_)).
Proof.
  intros L H. unfold shift_verts, morph_diff. cbn. revert L. generalize (oVerts bo) (oVerts to_).
  induction l as [|a l IH]; intros [|c l2] L; try discriminate; [reflexivity|].
  cbn. rewrite <- H. f_equal. apply IH. cbn in L; lia.
Qed.
Lemma fst_combine {A} (l1 l2 : list A) : length l1 = length l2 -> map (fun p => fst p) (combine l1 l2) = l1.
Proof. revert l2; induction l1 as [|a l1 IH]; intros [|b l2] L; try discriminate; cbn; [reflexivity|]. f_equal. apply IH. cbn in L; lia. Qed.
Lemma snd_combine {A} (l1 l2 : list A) : length l1 = length l2 -> map (fun p => snd p) (combine l1 l2) = l2.
Proof. revert l2; induction l1 as [|a l1 IH]; intros [|b l2] L; try discriminate; cbn; [reflexivity|]. f_equal. apply IH. cbn in L; lia. Qed.
Lemma shift_base_zero (bo to_ : object R) : length (oVerts bo) = length (oVerts to_) ->
  oVerts (shift_verts (morph_diff bo to_ 0%R) bo) = oVerts bo.
Proof.
  intro L. rewrite (shift_base_value bo to_ 0%R (fun x _ => x) L); [apply fst_combine; exact L|].
  intros x y. destruct x as [x1 x2 x3], y as [y1 y2 y3]. unfold v3add, v3scale, v3sub; cbn [vx vy vz nadd nsub nmul RNum].
  repeat match goal with |- mkV3 ?a ?b ?c = mkV3 ?a' ?b' ?c' =>
    replace a with a' by ring; replace b with b' by ring; replace c with c' by ring end. reflexivity.
Qed.
Lemma shift_base_one (bo to_ : object R) : length (oVerts bo) = length (oVerts to_) ->
  oVerts (shift_verts (morph_diff bo to_ 1%R) bo) = oVerts to_.
Proof.
  intro L. rewrite (shift_base_value bo to_ 1%R (fun _ y => y) L); [apply snd_combine; exact L|].
  intros x y. destruct x as [x1 x2 x3], y as [y1 y2 y3]. unfold v3add, v3scale, v3sub; cbn [vx vy vz nadd nsub nmul RNum].
  repeat match goal with |- mkV3 ?a ?b ?c = mkV3 ?a' ?b' ?c' =>
    replace a with a' by ring; replace b with b' by ring; replace c with c' by ring end. reflexivity.
Qed.

(** ** Material morphs *)
Section Mat.
Context {T : Type} {N : Num T}.
Lemma mat_loop_skip names pre v is_ : forall (ms : list (material T)),
  (forall i, In i is_ -> exists n, nth_error (map mtName ms) i = Some n /\ strip_prefix pre n = None) ->
  material_morph_loop names pre v is_ ms = Some ms.
Proof.
  induction is_ as [|i r IH]; intros ms H; [reflexivity|]. cbn.
  destruct (H i (or_introl eq_refl)) as [n [E S]]. rewrite nth_error_map in E.
  destruct (nth_error ms i) as [m|]; [|discriminate]. cbn in E. injection E as ->. rewrite S.
  apply IH. intros j Hj; apply H; right; exact Hj.
Qed.
Lemma mat_loop_app names pre v a b : forall (ms : list (material T)),
  material_morph_loop names pre v (a ++ b) ms =
  match material_morph_loop names pre v a ms with Some ms' => material_morph_loop names pre v b ms' | None => None end.
Proof.
  induction a as [|i r IH]; intro ms; [reflexivity|]. cbn.
  destruct (nth_error ms i) as [m|]; [|reflexivity].
  destruct (strip_prefix pre (mtName m)) as [tn|]; [|apply IH].
  destruct (mat_by_name names tn); [apply IH | reflexivity].
Qed.

(** One morph material: the colour of the material it names is blended, nothing else. *)
Lemma material_morph_one (ms : list (material T)) name v i m x k :
  nth_error ms i = Some m -> mtName m = (morph_prefix name ++ x)%string ->
  (forall j m', j <> i -> nth_error ms j = Some m' -> strip_prefix (morph_prefix name) (mtName m') = None) ->
  mat_by_name (map mtName ms) x = Some k ->
  apply_material_morph ms name v =
  Some (list_upd ms k (fun t => set_mat_color t (blend v (mtColor t) (mtColor m)))).
Proof.
  intros Ei En Ho Ek. unfold apply_material_morph.
  assert (Li : i < length ms) by (apply nth_error_Some; congruence).
  replace (seq 0 (length ms)) with (seq 0 i ++ i :: seq (S i) (length ms - S i)).
  2:{ replace (length ms) with (i + S (length ms - S i)) at 2 by lia. rewrite seq_app. reflexivity. }
  rewrite mat_loop_app. rewrite mat_loop_skip.
  2:{ intros j Hj. apply in_seq in Hj. destruct (nth_error ms j) as [m'|] eqn:Ej.
      - exists (mtName m'). rewrite nth_error_map, Ej. split; [reflexivity|]. apply (Ho j m'); [lia | exact Ej].
      - apply nth_error_None in Ej. lia. }
  cbn [material_morph_loop]. rewrite Ei, En, strip_append, Ek. apply mat_loop_skip.
  intros j Hj. apply in_seq in Hj. rewrite upd_names by reflexivity.
  destruct (nth_error ms j) as [m'|] eqn:Ej.
  - exists (mtName m'). rewrite nth_error_map, Ej. split; [reflexivity|]. apply (Ho j m'); [lia | exact Ej].
  - apply nth_error_None in Ej. lia.
Qed.
End Mat.

Section Wrap.
Context {T : Type} {N : Num T}.
Lemma lists_total_false ms name v (os : list (object T)) :
  exists os' u, morph_lists os ms name v false = Some (os', u) /\ same_shapes os os' /\
  (u = true <-> exists m, In m ms /\ In name (tlTargets m) /\
     exists b t bo to_, obj_by_name os (tlBase m) = Some b /\ obj_by_name os name = Some t /\
       nth_error os b = Some bo /\ nth_error os t = Some to_ /\ length (oVerts bo) = length (oVerts to_)) /\
  (forall k o, nth_error os k = Some o ->
     (forall m, In m ms -> In name (tlTargets m) -> oName o <> tlBase m /\ ~ In (oName o) (tlTargets m)) ->
     nth_error os' k = Some o).
Proof.
  destruct (lists_total ms name v os false) as [os' [u [E [S [U F]]]]]. exists os', u.
  split; [exact E|]. split; [exact S|]. split; [|exact F]. rewrite U. unfold applicable. split.
  - intros [X|X]; [discriminate | exact X].
  - intro X; right; exact X.
Qed.
Lemma material_crash (ms : list (material T)) name v :
  apply_material_morph ms name v = None <->
  exists m x, In m ms /\ mtName m = (morph_prefix name ++ x)%string /\ ~ In x (map mtName ms).
Proof.
  rewrite material_morph_none. unfold dangling. split.
  - intros [m [I [tn [S D]]]]. exists m, tn. split; [exact I|]. split; [apply strip_some; exact S | exact D].
  - intros [m [x [I [E D]]]]. exists m. split; [exact I|]. exists x. split; [rewrite E; apply strip_append | exact D].
Qed.
End Wrap.

(** The blended colour. *)
Lemma shift_other {T} {N : Num T} (bo to_ o : object T) v i x y p :
  nth_error (oVerts bo) i = Some x -> nth_error (oVerts to_) i = Some y -> nth_error (oVerts o) i = Some p ->
  nth_error (oVerts (shift_verts (morph_diff bo to_ v) o)) i = Some (v3add p (v3scale (v3sub y x) v)).
Proof. intros E1 E2 E3. apply shift_nth; [exact E3 | apply diff_nth; assumption]. Qed.
Lemma blend_0_1 (a b : vec4 R) : blend 0%R a b = a /\ blend 1%R a b = b.
Proof.
  destruct a as [a1 a2 a3 a4], b as [b1 b2 b3 b4]. unfold blend, v4add, v4scale. cbn [qx qy qz qw nadd nsub nmul none RNum].
  split; repeat match goal with |- mkV4 ?a ?b ?c ?d = mkV4 ?a' ?b' ?c' ?d' =>
    replace a with a' by ring; replace b with b' by ring; replace c with c' by ring; replace d with d' by ring end; reflexivity.
Qed.
Lemma blend_between (a b : vec4 R) v : blend v a b =
  mkV4 (qx a + v * (qx b - qx a))%R (qy a + v * (qy b - qy a))%R (qz a + v * (qz b - qz a))%R (qw a + v * (qw b - qw a))%R.
Proof.
  unfold blend, v4add, v4scale. cbn [qx qy qz qw nadd nsub nmul none RNum].
  match goal with |- mkV4 ?a ?b ?c ?d = mkV4 ?a' ?b' ?c' ?d' =>
    replace a with a' by ring; replace b with b' by ring; replace c with c' by ring; replace d with d' by ring end; reflexivity.
Qed.
