(** From FBX to PMX: the faces of the PMX model are the pieces of the polygons of the FBX document. *)
From Coq Require Import String List ZArith Bool Lia Permutation PeanoNat Reals.
From Verif.Model Require Import Num NumR Vec Matrix Mqo MqoDoc Mmd2Mqo Mqo2Mmd FbxDoc Fbx2Mqo.
From Verif Require Import Spec.Surface Spec.MqoSpec Spec.Mqo2MmdSpec Spec.FbxSceneSpec Spec.FbxMeshSpec Spec.GltfSpec Spec.DrawnSpec Spec.SceneDrawnSpec Spec.FbxPmxSpec.
From Verif Require Import Proofs.TriangulateProofs Proofs.Mqo2MmdTop Proofs.DrawnLemmas Proofs.DrawnProofs Proofs.DrawnFbx.
Import ListNotations.
Local Open Scope Z_scope.
Local Open Scope list_scope.

(** *** Fans *)
Definition fan_tris (m : nat) : list (nat * nat * nat) := map (fun n => (0, n + 1, n + 2)%nat) (seq 0 (m - 2)).
Lemma fan_seq x : forall j k, fan_rec x (seq k (S j)) = map (fun n => (x, n + k, n + S k)%nat) (seq 0 j).
Proof.
  induction j as [|j IH]; intros k; [reflexivity|]. specialize (IH (S k)). change (fan_rec x (seq k (S (S j)))) with ((x, k, S k) :: fan_rec x (seq (S k) (S j))). rewrite IH.
  change (seq 0 (S j)) with (0%nat :: seq 1 j). cbn [map Nat.add]. f_equal. rewrite <- seq_shift, map_map. apply map_ext. intros n. f_equal; [f_equal|]; lia.
Qed.
Lemma fan_tris_dissects m : (3 <= m)%nat -> dissects (seq 0 m) (fan_tris m).
Proof.
  intros H. assert (E : seq 0 m = 0%nat :: seq 1 (S (m - 2))) by (replace m with (S (S (m - 2))) at 1 by lia; reflexivity). rewrite E.
  replace (fan_tris m) with (fan_rec 0 (seq 1 (S (m - 2)))).
  - apply (@fan_rec_dissects R []). rewrite seq_length. lia.
  - rewrite fan_seq. reflexivity.
Qed.
Definition corners_are {A} (l : list A) (tri : list A) (t : nat * nat * nat) : Prop :=
  let '(a, b, c) := t in exists x y z, tri = [x; y; z] /\ nth_error l a = Some x /\ nth_error l b = Some y /\ nth_error l c = Some z.
Lemma triangles_fan {A} (l : list A) : Forall2 (corners_are l) (triangles l) (fan_tris (length l)).
Proof.
  unfold triangles, fan_tris. set (h := fun n : nat => match nth_error l 0, nth_error l (n + 1), nth_error l (n + 2) with Some a, Some b, Some c => [[a; b; c]] | _, _, _ => [] end).
  assert (E : flat_map h (seq 0 (length l)) = flat_map h (seq 0 (length l - 2))).
  { replace (length l) with ((length l - 2) + (length l - (length l - 2)))%nat at 1 by lia. rewrite seq_app, flat_map_app. rewrite <- (app_nil_r (flat_map h (seq 0 (length l - 2)))) at 2. f_equal.
    apply flat_map_nil. intros n Hn. apply in_seq in Hn. unfold h. destruct (nth_error l 0); [|reflexivity]. destruct (nth_error l (n + 1)); [|reflexivity]. destruct (nth_error l (n + 2)) eqn:E; [|reflexivity]. assert (n + 2 < length l)%nat by (apply nth_error_Some; congruence). lia. }
  rewrite E. clear E. assert (K : forall n, In n (seq 0 (length l - 2)) -> (n + 2 < length l)%nat) by (intros n Hn; apply in_seq in Hn; lia). revert K. generalize (seq 0 (length l - 2)). induction l0 as [|n l0 IH]; intros K; [constructor|]. cbn [flat_map map].
  assert (Hn := K n (or_introl eq_refl)). unfold h at 1.
  destruct (nth_error l 0) as [x|] eqn:E0; [|apply nth_error_None in E0; lia]. destruct (nth_error l (n + 1)) as [y|] eqn:E1; [|apply nth_error_None in E1; lia]. destruct (nth_error l (n + 2)) as [z|] eqn:E2; [|apply nth_error_None in E2; lia].
  cbn [app]. constructor; [exists x, y, z; auto|]. apply IH. intros k Hk. apply K. now right.
Qed.

(** *** One object *)
Section Object.
Context {T : Type} {N : Num T}.
Variables (turn : vec3 T -> vec3 T) (g : fgeom T) (mats : list Z) (M : mat4 T) (x : object T).
(** A corner of the MQO object is corner [a] of polygon [i]. *)
Definition fan_corner (i : nat) (poly : list Z) (a : nat) (c : corner (T:=T)) : Prop :=
  exists vi uv, c = (x, vi, uv) /\ nth_error poly a = Some vi /\
    (full_uvs g -> exists u, layer_value (gUVs g) i (first_corner g i + a) vi = Some u /\ uv = mkV2 (v2x u) (nsub none (v2y u))).
Definition fan_piece (i : nat) (mt : Z * list (corner (T:=T))) (t : nat * nat * nat) : Prop :=
  exists poly, nth_error (polygons g) i = Some poly /\
    (full_materials g -> forall j m, layer_index (gMats g) i 0 0 = Some j -> zidx mats j = Some m -> fst mt = m) /\
    let '(a, b, c) := t in exists ca cb cc, snd mt = [cc; cb; ca] /\ fan_corner i poly a ca /\ fan_corner i poly b cb /\ fan_corner i poly c cc.
Definition tagged (f : face T) : list (Z * list (corner (T:=T))) := map (pair (fMaterial f)) (triangles (Mqo2MmdSpec.corners x f)).

Lemma corners_get (f : face T) j c : nth_error (Mqo2MmdSpec.corners x f) j = Some c ->
  exists v, nth_error (fVerts f) j = Some v /\ c = (x, v, nth j (fUVs f) (mkV2 nzero nzero)).
Proof.
  unfold Mqo2MmdSpec.corners. rewrite nth_error_map. destruct (nth_error (seq 0 (length (fVerts f))) j) as [n|] eqn:E; [|discriminate]. cbn. intros [= <-].
  assert (L : (j < length (fVerts f))%nat) by (rewrite <- (seq_length (length (fVerts f)) 0); apply nth_error_Some; congruence).
  rewrite (nth_error_nth' _ 0%nat) in E by (rewrite seq_length; exact L). rewrite seq_nth in E by exact L. injection E as <-. cbn [Nat.add].
  exists (nth j (fVerts f) 0). split; [apply nth_error_nth'; exact L|reflexivity].
Qed.
Lemma object_fans fs : drawn_all g mats (normal_transform M) fs -> oFaces x = map (turned_face turn) fs ->
  exists P : list (nat * (nat * nat * nat)), Forall2 (fun mt q => fan_piece (fst q) mt (snd q)) (flat_map tagged (oFaces x)) P /\
    forall i poly, nth_error (polygons g) i = Some poly -> whole_polygon g i (map snd (filter (fun q => Nat.eqb (fst q) i) P)).
Proof.
  intros (LF & DF) OF. rewrite flat_map_concat_map.
  destruct (parts_build (fun i gs ps => Forall2 (fan_piece i) gs ps /\ whole_polygon g i ps) fan_piece (fun i gs ps H => proj1 H) (map tagged (oFaces x)) 0) as (P & P1 & _ & P3).
  - intros i gs Hi. cbn [Nat.add]. rewrite OF, map_map, nth_error_map in Hi. destruct (nth_error fs i) as [f|] eqn:Ef; [|discriminate]. cbn [option_map] in Hi. injection Hi as <-.
    destruct (nth_error (polygons g) i) as [poly|] eqn:Ep; [|apply nth_error_None in Ep; assert (i < length fs)%nat by (apply nth_error_Some; congruence); lia].
    destruct (DF i poly Ep) as (f0 & E5 & D1 & D2 & _ & D4). rewrite Ef in E5. injection E5 as <-.
    set (n := length poly). exists (map (turn_tri n) (fan_tris n)). split.
    + unfold tagged. set (f' := turned_face turn f). assert (LC : length (Mqo2MmdSpec.corners x f') = n) by (unfold Mqo2MmdSpec.corners; rewrite map_length, seq_length; cbn [f' turned_face fVerts]; rewrite D1; apply rev_length).
      pose proof (triangles_fan (Mqo2MmdSpec.corners x f')) as TF. rewrite LC in TF. change (fMaterial f') with (fMaterial f).
      assert (CC : forall a c, nth_error (Mqo2MmdSpec.corners x f') a = Some c -> fan_corner i poly (back n a) c).
      { intros a c Hc. apply corners_get in Hc as (v & V1 & ->). cbn [f' turned_face fVerts fUVs] in V1 |- *. rewrite D1 in V1. assert (AN : (a < n)%nat) by (unfold n; rewrite <- rev_length; apply nth_error_Some; congruence). apply nth_rev in V1. fold n in V1. exists v, (nth a (fUVs f) (mkV2 nzero nzero)). split; [reflexivity|]. split; [exact V1|].
        intros FU. specialize (D2 FU). assert (LU : length (fUVs f) = length poly). { apply f2_length in D2. rewrite rev_length in D2. rewrite <- D2. unfold FbxMeshSpec.corners. rewrite combine_length, seq_length. lia. }
        pose proof (corners_nth g i _ _ _ V1) as CN. destruct (forall2_nth_l _ _ _ _ _ D2 CN) as (uv & U1 & w & W1 & W2). cbn [fst snd] in W1. apply nth_rev in U1. rewrite LU in U1. fold n in U1.
        assert (A : back n (back n a) = a) by (unfold back; lia).
        fold (back n (back n a)) in U1. rewrite A in U1. exists w. split; [exact W1|]. rewrite <- W2. apply nth_error_nth. exact U1. }
      clear - TF CC D4 Ep. induction TF as [|tri t tris ts TT TF IH]; cbn [map]; constructor; [|exact IH]. exists poly. split; [exact Ep|]. split; [intros FM j m A B; exact (D4 FM _ _ j m A B)|].
      destruct t as [[a b] c]. cbn [turn_tri]. destruct TT as (ca & cb & cc & -> & A & B & C). exists cc, cb, ca. cbn [snd]. split; [reflexivity|]. auto.
    + intros poly' Hp. rewrite Ep in Hp. injection Hp as <-. fold n. split; [unfold fan_tris; rewrite !map_length, seq_length; reflexivity|]. intros L3. apply turn_dissects, fan_tris_dissects. exact L3.
  - exists P. split; [exact P1|]. intros i poly Hp. destruct (nth_error (map tagged (oFaces x)) i) as [gs|] eqn:Eg; [exact (proj2 (P3 i gs Eg))|].
    exfalso. apply nth_error_None in Eg. rewrite OF, !map_length in Eg. assert (i < length (polygons g))%nat by (apply nth_error_Some; congruence). lia.
Qed.
End Object.

(** *** Sorting by material *)
Lemma filter_split {A} (f h k : A -> bool) l : (forall x, k x = f x || h x) -> (forall x, f x && h x = false) -> Permutation (filter k l) (filter f l ++ filter h l).
Proof.
  intros K D. induction l as [|x l IH]; [constructor|]. cbn [filter]. rewrite K. specialize (D x). destruct (f x), (h x); cbn [orb andb] in *; try discriminate; [now constructor| |exact IH].
  eapply Permutation_trans; [apply Permutation_cons; [reflexivity|exact IH]|]. apply Permutation_middle.
Qed.
Lemma by_number {A} (l : list (Z * A)) : forall n, Permutation (filter (fun e => (0 <=? fst e) && (fst e <? Z.of_nat n)) l) (flat_map (fun k => filter (fun e => fst e =? Z.of_nat k) l) (seq 0 n)).
Proof.
  induction n as [|n IH].
  - cbn [seq flat_map]. rewrite FbxObjects.filter_none; [constructor|]. intros x _. destruct (Z.leb_spec 0 (fst x)), (Z.ltb_spec (fst x) (Z.of_nat 0)); try reflexivity; lia.
  - rewrite seq_S, flat_map_app. cbn [flat_map Nat.add]. rewrite app_nil_r. eapply Permutation_trans; [apply (filter_split (fun e => (0 <=? fst e) && (fst e <? Z.of_nat n)) (fun e => fst e =? Z.of_nat n))|apply Permutation_app_tail; exact IH].
    + intros x. destruct (Z.leb_spec 0 (fst x)), (Z.ltb_spec (fst x) (Z.of_nat (S n))), (Z.ltb_spec (fst x) (Z.of_nat n)), (Z.eqb_spec (fst x) (Z.of_nat n)); try reflexivity; lia.
    + intros x. destruct (Z.leb_spec 0 (fst x)), (Z.ltb_spec (fst x) (Z.of_nat n)), (Z.eqb_spec (fst x) (Z.of_nat n)); try reflexivity; lia.
Qed.
Section Tagged.
Context {T : Type} {N : Num T}.
Definition all_tagged (sets : list target_list) (os : list (object T)) : list (Z * list (corner (T:=T))) := flat_map (fun o => flat_map (tagged o) (oFaces o)) (filter (exported sets) os).
Lemma filter_flat {A B} (f : A -> list B) (k : B -> bool) l : filter k (flat_map f l) = flat_map (fun a => filter k (f a)) l.
Proof. induction l as [|a l IH]; [reflexivity|]. cbn [flat_map]. now rewrite filter_app, IH. Qed.
Lemma map_flat {A B C} (f : A -> list B) (k : B -> C) l : map k (flat_map f l) = flat_map (fun a => map k (f a)) l.
Proof. induction l as [|a l IH]; [reflexivity|]. cbn [flat_map]. now rewrite map_app, IH. Qed.
Lemma of_material sets (os : list (object T)) k : map (pair k) (material_triangles sets os k) = filter (fun mt => fst mt =? k) (all_tagged sets os).
Proof.
  unfold material_triangles, all_tagged. rewrite map_flat, filter_flat. apply flat_map_ext. intros o. rewrite map_flat, filter_flat. apply flat_map_ext. intros f. unfold tagged. destruct (Z.eqb_spec (fMaterial f) k) as [->|NE].
  - rewrite filter_whole; [reflexivity|]. intros e He. apply in_map_iff in He as (t & <- & _). apply Z.eqb_refl.
  - rewrite FbxObjects.filter_none; [reflexivity|]. intros e He. apply in_map_iff in He as (t & <- & _). now apply Z.eqb_neq.
Qed.
(** The faces with their materials. *)
Lemma owners_of : forall (slices : list (list (list Z))) (mats : list pmat) k, map pmCount mats = map (fun s => 3 * Z.of_nat (length s)) slices ->
  let ow := flat_map (fun km => repeat (fst km) (Z.to_nat (pmCount (snd km) / 3))) (combine (seq k (length mats)) mats) in
  length ow = length (concat slices) /\ combine ow (concat slices) = flat_map (fun ks => map (pair (fst ks)) (snd ks)) (combine (seq k (length slices)) slices).
Proof.
  induction slices as [|s slices IH]; intros [|m mats] k E; try discriminate; [split; reflexivity|]. injection E as E1 E2. destruct (IH mats (S k) E2) as (A & B). cbn zeta. cbn [length seq combine flat_map fst snd concat]. assert (Q : Z.to_nat (pmCount m / 3) = length s) by (change (pmCount m = 3 * Z.of_nat (length s)) in E1; rewrite E1, Z.mul_comm, Z.div_mul, Nat2Z.id by lia; reflexivity). rewrite Q.
  rewrite !app_length, repeat_length. split; [lia|]. rewrite <- B. clear. set (ow := flat_map _ _). generalize (concat slices) as r. induction s as [|x s IH]; intros r; [reflexivity|]. cbn [length repeat app combine map]. now rewrite IH.
Qed.
End Tagged.

(** *** The documents *)
Section Documents.
Variables (tenth facet : R) (d : fdoc R) (op : foption R) (depth : nat -> nat) (fuel : nat) (st : fstate R) (mats : list (material R)).
Hypothesis OT : opTarget op = ""%string.
Hypothesis OO : opOverride op = None.
Hypothesis IP : in_place op.
Hypothesis TD : tree_doc d depth.
Hypothesis ND : NoDup (fdMats d).
Hypothesis EC : convert_fbx tenth facet d fuel op [] 0 = FOk (st, mats).
Variables (move turn : vec3 R -> vec3 R) (dd : document R).
Hypothesis OB : Forall2 (moved_object move turn) (fsObjs st) (dObjects dd).
Hypothesis MA : dMaterials dd = mats.
Hypothesis IX : forall o k f, shown d op o -> geometry d o = Some (k, f) -> indexed f.

Definition stands_as (coord : mat4 R) (mt : Z * list (corner (T:=R))) (r : piece) : Prop :=
  let '(o, i, t) := r in
  exists k h w ms x, shown d op o /\ geometry d o = Some (k, h) /\ world_of d o w /\ numbers (convert_material tenth d) d mats o ms /\
    oVerts x = map move (map (mat_apply (mat_mul coord w)) (gVerts h)) /\ fan_piece h ms x i mt t.

Lemma all_fans sets coord L objs : Forall2 (placed_as tenth d op mats move turn sets coord) L objs -> NoDup (bases L) ->
  exists P, Forall2 (stands_as coord) (all_tagged sets objs) P /\ (forall q, In q P -> In (fst (fst q)) (bases L)) /\
    forall o k h i poly, In o (bases L) -> geometry d o = Some (k, h) -> nth_error (polygons h) i = Some poly -> whole_polygon h i (pieces_of o i P).
Proof.
  unfold all_tagged, bases. induction 1 as [|l x L objs PA F IH]; intros NB.
  { exists []. split; [constructor|]. split; [intros q []|intros o k h i poly []]. }
  destruct PA as (V & _ & PA). cbn [filter] in NB |- *. unfold exported at 1. rewrite V. destruct (snd l) as [s|] eqn:El; cbn [andb].
  - exact (IH NB).
  - cbn [map] in NB |- *. inversion NB as [|? ? NI NB']; subst. destruct (PA eq_refl) as (S1 & EX & G). rewrite EX. cbn [negb flat_map]. destruct (IH NB') as (P & P1 & P2 & P3).
    assert (Q : exists Q, Forall2 (stands_as coord) (flat_map (tagged x) (oFaces x)) (map (fun q => (model_of l, fst q, snd q)) Q) /\
      forall k h i poly, geometry d (model_of l) = Some (k, h) -> nth_error (polygons h) i = Some poly -> whole_polygon h i (map snd (filter (fun q => Nat.eqb (fst q) i) Q))).
    { destruct (geometry d (model_of l)) as [[k h]|] eqn:EGm.
      - destruct G as (w & ms & fs & G1 & G2 & G3 & G4 & G5). destruct (object_fans turn h ms (mat_mul coord w) x fs G5 G4) as (Q & Q1 & Q2). exists Q. split; [|intros k' h' i poly [= <- <-]; apply Q2].
        clear - Q1 EGm S1 G1 G2 G3. induction Q1 as [|f q tt Q R1 Q1 IH1]; cbn [map]; constructor; [|exact IH1]. exists k, h, w, ms, x. repeat (split; [assumption|]). exact R1.
      - rewrite G. exists []. split; [constructor|intros k h i poly [=]]. }
    destruct Q as (Q & Q1 & Q2). exists (map (fun q => (model_of l, fst q, snd q)) Q ++ P). split; [apply Forall2_app; assumption|]. split.
    + intros q Hq. apply in_app_or in Hq as [Hq|Hq]; [left; apply in_map_iff in Hq as (r & <- & _); reflexivity|right; exact (P2 q Hq)].
    + intros o k h i poly Ho EGo Ep. rewrite pieces_app. destruct Ho as [<-|Ho].
      * rewrite pieces_own, (pieces_other _ _ P), app_nil_r by (intros q Hq C; apply NI; rewrite <- C; exact (P2 q Hq)). exact (Q2 k h i poly EGo Ep).
      * rewrite (pieces_other o i (map _ Q)) by (intros q Hq C; apply in_map_iff in Hq as (r & <- & _); cbn in C; apply NI; rewrite C; exact Ho). exact (P3 o k h i poly Ho EGo Ep).
Qed.

Lemma well_indexed_all : Forall well_indexed (dObjects dd).
Proof.
  destruct (fbx_described tenth facet d op depth fuel st mats OT OO IP TD ND IX EC) as (coord & vs & CO & (NV & VN) & SV & EM & F). clear - OB F. revert F. generalize (flat_map (labels d op) vs) as L. revert OB. generalize (fsObjs st) as xs. generalize (dObjects dd) as xs'.
  intros xs' xs OB'. induction OB' as [|x x' xs xs' (V & U & _ & _ & _ & _ & _ & Fa) OB' IH]; intros L F; inversion F as [|l ? L' ? (_ & _ & _ & _ & A5 & _) F'']; subst; constructor; [|eapply IH; eassumption].
  unfold well_indexed in *. rewrite V, Fa, map_length, Forall_map. cbn [fVerts fUVs]. exact A5.
Qed.
(** The conversion succeeds. *)
Theorem pmx_exported (scale centi : R) bones sets : to_mmd scale centi dd bones sets <> None.
Proof.
  apply to_mmd_total. unfold valid_faces. eapply Forall_impl; [|exact well_indexed_all]. intros o H. unfold well_indexed in H. eapply Forall_impl; [|exact H]. cbn. tauto.
Qed.

Variables (scale centi : R) (bones : list (bone R)) (sets : list target_list) (p : pmodel R).
Hypothesis EP : to_mmd scale centi dd bones sets = Some p.
Hypothesis PT : forall o k f i poly, shown d op o -> geometry d o = Some (k, f) -> nth_error (polygons f) i = Some poly -> exists mo, painted d o f i mo.
Hypothesis NM : forall o s, shown d op o -> In s sets -> ~ In (object_name (name d o)) (tlTargets s).

Theorem pmx_drawn : exists coord L, fdCoord d = Some coord /\ length (face_owners (pMats p)) = length (pFaces p) /\
  Forall2 (is_piece scale tenth move d coord p) L (combine (face_owners (pMats p)) (pFaces p)) /\ Forall (fun q => shown d op (fst (fst q))) L /\
  forall o k h i poly, shown d op o -> geometry d o = Some (k, h) -> nth_error (polygons h) i = Some poly ->
    length (pieces_of o i L) = (length poly - 2)%nat /\ ((3 <= length poly)%nat -> dissects (seq 0 (length poly)) (pieces_of o i L)).
Proof.
  destruct (fbx_described tenth facet d op depth fuel st mats OT OO IP TD ND IX EC) as (coord & vs & CO & (NV & VN) & SV & EM & F). exists coord.
  assert (HP : Forall2 (placed_as tenth d op mats move turn sets coord) (flat_map (labels d op) vs) (dObjects dd)).
  { assert (LS : Forall (fun l => snd l = None -> shown d op (model_of l)) (flat_map (labels d op) vs)).
    { apply Forall_forall. intros l Hl E. apply SV. rewrite <- (bases_flat d op). unfold bases. apply in_map_iff. exists l. split; [reflexivity|]. apply filter_In. rewrite E. auto. }
    revert LS. revert F. generalize (flat_map (labels d op) vs) as L. revert OB. generalize (fsObjs st) as xs. generalize (dObjects dd) as xs'.
    intros xs' xs OB' L F' LS. revert L F' LS. induction OB' as [|x x' xs xs' MO OB' IH]; intros L F' LS; inversion F' as [|l ? L' ? (A1 & A2 & A3 & A4 & A5 & _) F'']; subst; [constructor|]. inversion LS; subst. constructor; [|apply IH; assumption].
    eapply moved_placed; eassumption. }
  destruct (all_fans sets coord _ _ HP ltac:(rewrite bases_flat; exact NV)) as (P & P1 & P2 & P3). rewrite bases_flat in P2, P3.
  (* materials *)
  assert (MP : forall mt r, stands_as coord mt r -> exists mo m, (forall k h, geometry d (fst (fst r)) = Some (k, h) -> painted d (fst (fst r)) h (snd (fst r)) mo) /\ fst mt = Z.of_nat m /\ nth_error mats m = Some (convert_material tenth d mo)).
  { intros mt [[o i] t] (k & h & w & ms & x & S1 & EGo & WO & NU & VX & poly & EPo & MT & _). cbn [fst snd]. destruct (PT o k h i poly S1 EGo EPo) as (mo & PA). exists mo. pose proof PA as (FM & j & J1 & J2 & J3). destruct (NU j mo J2 J3) as (m & M1 & M2). specialize (MT FM j _ J1 M1).
    exists m. split; [intros k' h' E'; rewrite EGo in E'; injection E' as <- <-; exact PA|]. auto. }
  destruct (to_mmd_faces scale centi dd bones sets p EP) as (NMS & slices & S1 & S2 & S3). rewrite MA in NMS, S3.
  destruct (owners_of slices (pMats p) 0 S2) as (OW1 & OW2). cbn zeta in OW1, OW2. fold (face_owners (pMats p)) in OW1, OW2. rewrite <- S1 in OW1, OW2.
  (* the faces with their triangles *)
  assert (FF : Forall2 (fun mt t => fst mt = Z.of_nat (fst t) /\ Forall2 (fun c id => at_corner scale p id c) (snd mt) (snd t))
    (flat_map (fun k => filter (fun e => fst e =? Z.of_nat k) (all_tagged sets (dObjects dd))) (seq 0 (length mats))) (combine (face_owners (pMats p)) (pFaces p))).
  { rewrite OW2. clear - S3. assert (LS : length slices = length mats) by (apply f2_length in S3; rewrite seq_length in S3; congruence). rewrite LS. clear LS. revert S3. generalize (seq 0 (length mats)) as ks. intros ks S3. induction S3 as [|k s ks slices H S3 IH]; [constructor|]. cbn [combine flat_map fst snd]. apply Forall2_app; [|exact IH].
    rewrite <- of_material. clear - H. induction H; cbn [map]; constructor; [split; [reflexivity|assumption]|assumption]. }
  assert (PE : Permutation (all_tagged sets (dObjects dd)) (flat_map (fun k => filter (fun e => fst e =? Z.of_nat k) (all_tagged sets (dObjects dd))) (seq 0 (length mats)))).
  { eapply Permutation_trans; [|apply by_number]. rewrite filter_whole; [reflexivity|]. intros e He. apply In_nth_error in He as (n & He). destruct (forall2_nth_l _ _ _ _ _ P1 He) as (r & _ & R0). destruct (MP e r R0) as (mo & m & _ & E1 & E2).
    assert (m < length mats)%nat by (apply nth_error_Some; congruence). rewrite E1. destruct (Z.leb_spec 0 (Z.of_nat m)), (Z.ltb_spec (Z.of_nat m) (Z.of_nat (length mats))); try reflexivity; lia. }
  destruct (forall2_perm _ _ _ _ P1 PE) as (L & PL & FL). exists L. split; [exact CO|]. split; [exact OW1|]. split; [|split].
  - clear PE PL P1 P2 P3 P S1 S2 S3 OW1 OW2. revert L FL FF. generalize (combine (face_owners (pMats p)) (pFaces p)) as ts. generalize (flat_map (fun k => filter (fun e => fst e =? Z.of_nat k) (all_tagged sets (dObjects dd))) (seq 0 (length mats))) as l. induction l as [|q l IH]; intros ts L FL FF; inversion FL as [|? r ? L' S0 FL']; subst; inversion FF as [|? t ? D1 S2 FF']; subst; [constructor|]. constructor; [|apply IH; assumption].
    destruct (MP q r S0) as (mo & m & PA & E1 & E2). destruct r as [[o i] [[a b] c]]. cbn [fst snd] in PA. destruct S0 as (k & h & w & ms & x & S1 & EGo & WO & NU & VX & poly & EPo & MT & ca & cb & cc & EQ & C1 & C2 & C3). specialize (PA k h EGo). destruct S2 as (T1 & T2).
    assert (EM' : fst t = m) by lia. rewrite EQ in T2. destruct t as [tm ids]. cbn [fst snd] in *. inversion T2 as [|? z ? ids1 Z1 T3]; subst. inversion T3 as [|? y ? ids2 Y1 T4]; subst. inversion T4 as [|? x' ? ids3 X1 T5]; subst. inversion T5; subst.
    assert (NME : exists pm, nth_error (pMats p) m = Some pm /\ pmName pm = mtName (convert_material tenth d mo)).
    { pose proof (map_nth_error (@mtName R) _ _ E2) as E3. rewrite <- NMS, nth_error_map in E3. destruct (nth_error (pMats p) m) as [pm|]; [|discriminate]. cbn in E3. injection E3 as E3. eauto. }
    destruct NME as (pm & N1 & N2). exists k, h, w, poly, mo, pm, x', y, z. cbn [fst snd].
    split; [exact EGo|]. split; [exact WO|]. split; [exact EPo|]. split; [exact PA|]. split; [exact N1|]. split; [exact N2|]. split; [reflexivity|].
    assert (CC : forall aa c0 id, fan_corner h x i poly aa c0 -> at_corner scale p id c0 -> is_fcorner scale move coord p h w i poly aa id).
    { intros aa c0 id (vi & uv & -> & A1 & A3) (v & q0 & B1 & B2 & B3 & B4). rewrite VX, map_map in B2. unfold zidx in B2. destruct (vi <? 0) eqn:EV; [discriminate|]. rewrite nth_error_map in B2. destruct (nth_error (gVerts h) (Z.to_nat vi)) as [v0|] eqn:Ev; [|discriminate]. cbn in B2. injection B2 as <-.
      exists vi, v0, v. split; [exact A1|]. split; [unfold zidx; rewrite EV; exact Ev|]. split; [exact B1|]. split; [exact B3|]. intros FU. destruct (A3 FU) as (u & U1 & U2). exists u. split; [exact U1|]. rewrite <- U2. destruct B4 as [B4|(B4 & B5)]; [exact B4|].
      destruct (pvUV v) as [ux uy], uv as [wx wy]. cbn [v2x v2y] in B4, B5. change (Reqb ux wx = true) in B4. change (Reqb uy wy = true) in B5. unfold Reqb in B4, B5. destruct (Req_EM_T ux wx); [|discriminate]. destruct (Req_EM_T uy wy); [|discriminate]. congruence. }
    split; [eapply CC; eassumption|]. split; [eapply CC; eassumption|eapply CC; eassumption].
  - apply Forall_forall. intros q Hq. apply SV. apply P2. exact (Permutation_in _ (Permutation_sym PL) Hq).
  - intros o k h i poly Sh EGo EPo. destruct (P3 o k h i poly (proj2 (SV o) Sh) EGo EPo poly EPo) as (A & B).
    assert (PP : Permutation (pieces_of o i P) (pieces_of o i L)) by (unfold pieces_of; apply Permutation_map, filter_perm; exact PL).
    split; [rewrite <- (Permutation_length PP); exact A|]. intros L3. eapply dissects_perm; [exact PP|]. exact (B L3).
Qed.
End Documents.
