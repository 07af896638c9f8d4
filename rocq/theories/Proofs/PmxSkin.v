(** From PMX over MQO to PMX, with weights. *)
From Coq Require Import String List ZArith Bool Lia Permutation.
From Verif.Model Require Import Num Vec Matrix Mqo MqoDoc Mmd2Mqo Mqo2Mmd.
From Verif Require Import Spec.MmdConvSpec Spec.Mqo2MmdSpec Spec.GltfSpec Spec.DrawnSpec Spec.FbxPmxSpec Spec.PmxPmxSpec Spec.PmxSkinSpec.
From Verif Require Import Proofs.Mmd2MqoProofs Proofs.Mqo2MmdTop Proofs.DrawnLemmas Proofs.DrawnConv Proofs.DrawnProofs Proofs.DrawnFbx Proofs.GltfSceneProofs Proofs.FbxPmx Proofs.PmxPmx.
Import ListNotations.
Local Open Scope Z_scope.
Local Open Scope list_scope.

Lemma f2_weak {A B} (P Q : A -> B -> Prop) l l' : (forall a b, P a b -> Q a b) -> Forall2 P l l' -> Forall2 Q l l'.
Proof. intros H. induction 1; constructor; auto. Qed.
Lemma f2_at {A B} (R : A -> B -> Prop) l l' : Forall2 R l l' -> Forall2 (fun a b => R a b /\ exists j, nth_error l j = Some a /\ nth_error l' j = Some b) l l'.
Proof.
  induction 1 as [|a b l l' H F IH]; constructor.
  - split; [exact H|]. exists 0%nat. auto.
  - eapply f2_weak; [|exact IH]. intros x y (P & j & J1 & J2). split; [exact P|]. exists (S j). auto.
Qed.
Lemma flat_seq {A B} (F : nat * A -> list B) (G : nat -> list B) l : forall k, (forall j b, nth_error l j = Some b -> F ((k + j)%nat, b) = G (k + j)%nat) ->
  flat_map F (combine (seq k (length l)) l) = flat_map G (seq k (length l)).
Proof.
  induction l as [|a l IH]; intros k H; [reflexivity|]. cbn [length seq combine flat_map]. f_equal.
  - specialize (H 0%nat a eq_refl). now rewrite Nat.add_0_r in H.
  - apply IH. intros j b J. specialize (H (S j) b J). now rewrite Nat.add_succ_r in H.
Qed.

Section Proofs.
Context {T : Type} {N : Num T}.
Variables (hundred facet : T) (shuffle : vmap -> vmap).
Hypothesis shuffle_perm : forall m, Permutation (shuffle m) m.
Variables (p : pmodel T) (os : list (object T)) (bw : bone_weights (T := T)) (sets : list target_list).
Hypothesis EC : convert hundred facet shuffle p = Some (os, bw, sets).
Hypothesis CV : covers p.
Hypothesis three : Forall (fun f => length f = 3%nat) (pFaces p).
Hypothesis names : forall m, In m (pMorphs p) -> ~ mesh_name (phName m).
Hypothesis one : once p.
Variables (move turn : vec3 T -> vec3 T) (dd : document T).
Hypothesis OB : Forall2 (moved_object move turn) os (dObjects dd).

Definition skin_from (mt : Z * list (corner (T:=T))) (fi : nat) : Prop :=
  exists o o' f k src fsrc, moved_object move turn o o' /\ resolve o f = source p fi /\ (fi < length (pFaces p))%nat /\ fst mt = fMaterial f /\
    snd mt = Mqo2MmdSpec.corners o' (mkFace (fUID f) (fVerts f) (fMaterial f) (fUVs f) (map (option_map turn) (fNormals f))) /\
    made o /\ In f (oFaces o) /\ map (zidx src) (fVerts f) = map Some (nth fi (pFaces p) []) /\
    forall b ws, zidx bw b = Some ws -> forall vid, stored ws (oUID o) vid = exp_w hundred p (IMesh k src fsrc) b vid.

Lemma skin_tagged o o' f fi k src fsrc : moved_object move turn o o' -> resolve o f = source p fi -> (fi < length (pFaces p))%nat -> made o -> In f (oFaces o) ->
  map (zidx src) (fVerts f) = map Some (nth fi (pFaces p) []) -> (forall b ws, zidx bw b = Some ws -> forall vid, stored ws (oUID o) vid = exp_w hundred p (IMesh k src fsrc) b vid) ->
  Forall2 skin_from (tagged o' (mkFace (fUID f) (fVerts f) (fMaterial f) (fUVs f) (map (option_map turn) (fNormals f)))) [fi].
Proof.
  intros MO E L MD IF SR W. pose proof E as E'. unfold resolve, source in E'. destruct (source_three p three fi L) as (a & b & c & Ef). rewrite Ef in E'. cbn [map] in E'. injection E' as _ E1 _ _.
  destruct (fVerts f) as [|x [|y [|z [|]]]] eqn:Fv; try discriminate E1.
  assert (Et : tagged o' (mkFace (fUID f) [x; y; z] (fMaterial f) (fUVs f) (map (option_map turn) (fNormals f))) =
    [(fMaterial f, Mqo2MmdSpec.corners o' (mkFace (fUID f) [x; y; z] (fMaterial f) (fUVs f) (map (option_map turn) (fNormals f))))]) by reflexivity.
  rewrite Et. constructor; [|constructor]. exists o, o', f, k, src, fsrc. rewrite Fv. auto 12.
Qed.
Lemma skins_from : exists P, Forall2 skin_from (all_tagged sets (dObjects dd)) P /\ Permutation P (seq 0 (length (pFaces p))).
Proof.
  destruct (convert_held hundred facet shuffle shuffle_perm p os bw sets EC CV) as (_ & is & HH & PF).
  destruct (convert_made hundred facet shuffle _ _ _ _ EC) as (_ & SO).
  exists (flat_map info_faces is). split; [|exact PF].
  assert (RG : forall fi, In fi (flat_map info_faces is) -> (fi < length (pFaces p))%nat).
  { intros fi I. apply (Permutation_in _ PF), in_seq in I. lia. }
  clear PF. unfold all_tagged. revert is HH RG. pose proof OB as OB0. clear EC OB. induction OB0 as [|o o' l l' M OB' IH]; intros is HH RG; inversion HH as [|? i ? is' H HH']; subst; [constructor|].
  cbn [flat_map] in *. specialize (IH is' HH' (fun fi I => RG fi (in_or_app _ _ _ (or_intror I)))).
  pose proof M as (_ & _ & Na & Vs & _ & _ & _ & Fa). destruct H as (MD & _ & Hi & W). pose proof MD as (_ & _ & Md).
  cbn [filter]. destruct i as [k src fsrc|]; cbn [info_faces] in *.
  - destruct Hi as (Vi & (_ & _ & SF) & R). destruct Md as [(_ & _ & _ & Mn)|(_ & V0)]; [|congruence].
    assert (Ex : exported sets o' = true).
    { unfold exported. rewrite Vs, Vi. cbn [andb]. apply negb_true_iff. destruct (existsb _ sets) eqn:Ee; [|reflexivity]. exfalso.
      apply existsb_exists in Ee as (s & Hs & Ee). apply existsb_exists in Ee as (t & Ht & Et). apply String.eqb_eq in Et. subst t.
      unfold sets_ok in SO. rewrite Forall_forall in SO. specialize (SO s Hs). rewrite Forall_forall in SO. specialize (SO _ Ht).
      apply in_map_iff in SO as (m & Hm & Hin). apply (names m Hin). rewrite Hm, Na. exact Mn. }
    rewrite Ex. cbn [flat_map]. apply Forall2_app; [|exact IH]. rewrite Fa. clear IH HH HH' Vi Ex Fa.
    assert (RF : forall fi, In fi fsrc -> (fi < length (pFaces p))%nat) by (intros fi I; apply RG, in_or_app; left; exact I). clear RG.
    assert (IF : forall f, In f (oFaces o) -> In f (oFaces o)) by auto. remember fsrc as fsrc0 eqn:E0. rewrite E0 in SF, R, RF |- *. clear E0. revert fsrc SF R RF IF. generalize (oFaces o) at 1 2 3 5 as fs. induction fs as [|f fs IHf]; intros [|fi fsrc] SF R RF IF; try discriminate R; [constructor|]. pose proof (f_equal (@hd_error _) R) as R1. pose proof (f_equal (@tl _) R) as R2. cbn [map hd_error tl] in R1, R2. assert (R3 : resolve o f = source p fi) by congruence.
    inversion SF as [|? ? ? ? (SF1 & _) SF2]; subst.
    cbn [map flat_map]. change (fi :: fsrc) with ([fi] ++ fsrc). apply Forall2_app; [|apply IHf; [exact SF2 | exact R2 | intros x I; apply RF; right; exact I | intros x I; apply IF; right; exact I]].
    apply (skin_tagged o o' f fi k src fsrc0 M R3); [apply RF; left; reflexivity | exact MD | apply IF; left; reflexivity | exact SF1 | exact W].
  - assert (Ex : exported sets o' = false) by (unfold exported; rewrite Vs, Hi; reflexivity). rewrite Ex. exact IH.
Qed.

Variables (scale centi : T) (bones : list (bone T)) (p' : pmodel T) (extra : list string).
Hypothesis MN : map (@mtName T) (dMaterials dd) = map pmName (pMats p) ++ extra.
Hypothesis BN : map (@bWeights T) bones = bw.
Hypothesis EP : to_mmd scale centi dd bones sets = Some p'.

Lemma stored_weights (o' : object T) ws x i : oVertexByUID o' = [] -> 0 <= x < Z.of_nat (length (oVerts o')) ->
  flat_map (fun b => if fst b =? oUID o' then map (fun e => (i, nmul (snd e) centi)) (filter (fun e => get_vertex_index_by_id o' (fst e) =? x) (snd b)) else []) ws =
  map (fun w : T => (i : Z, nmul w centi)) (stored ws (oUID o') (x + 1)).
Proof.
  intros U B. unfold stored. induction ws as [|[ob l] ws IH]; [reflexivity|]. cbn [flat_map fst snd]. rewrite IH, filter_app, !map_app. f_equal. destruct (ob =? oUID o'); [|reflexivity].
  induction l as [|[vid w] l IHl]; [reflexivity|]. cbn [filter map fst snd].
  assert (E : (get_vertex_index_by_id o' vid =? x) = (vid =? x + 1)).
  { unfold get_vertex_index_by_id. rewrite U. cbn [assoc]. destruct (Z.leb_spec vid (Z.of_nat (length (oVerts o')))), (Z.eqb_spec vid (x + 1)); try apply Z.eqb_eq; try apply Z.eqb_neq; lia. }
  rewrite E. destruct (vid =? x + 1); cbn [map fst snd]; [f_equal|]; exact IHl.
Qed.
Lemma skin_weights o o' k src fsrc x q v : moved_object move turn o o' -> made o -> 0 <= x < Z.of_nat (length (oVerts o)) -> zidx src x = Some q -> zidx (pVerts p) q = Some v ->
  (forall b ws, zidx bw b = Some ws -> forall vid, stored ws (oUID o) vid = exp_w hundred p (IMesh k src fsrc) b vid) ->
  weights_of centi o' bones x = skin_over hundred centi p v.
Proof.
  intros (V & U & _ & _ & _ & _ & BU & _) (MU & _) B SX PV W. unfold weights_of, skin_over.
  destruct (convert_held hundred facet shuffle shuffle_perm p os bw sets EC CV) as (LB & _). rewrite <- BN, map_length in LB. rewrite <- LB.
  apply flat_seq. intros j b J. cbn [fst snd Nat.add]. rewrite stored_weights; [|congruence|rewrite V, map_length; exact B]. rewrite U. f_equal.
  rewrite (W (Z.of_nat j) (bWeights b)).
  - cbn [exp_w]. replace (x + 1 - 1) with x by lia. rewrite SX, PV. apply expected_more. right. apply one. unfold zidx in PV. destruct (q <? 0); [discriminate|]. exact (nth_error_In _ _ PV).
  - rewrite <- BN. unfold zidx. destruct (Z.ltb_spec (Z.of_nat j) 0); [lia|]. rewrite Nat2Z.id, nth_error_map, J. reflexivity.
Qed.
Lemma skin_face mt fi t : skin_from mt fi -> fst mt = Z.of_nat (fst t) ->
  Forall2 (fun c id => at_corner scale p' id c /\ has_weights p' id (firstn 4 (weights_of centi (fst (fst c)) bones (snd (fst c))))) (snd mt) (snd t) -> same_skin_face hundred centi scale move p p' fi t.
Proof.
  intros (o & o' & f & k & src & fsrc & MO & R & L & Em & Es & MD & IF & SR & W) Ef F.
  assert (SF : same_face scale move p p' fi t).
  { apply (face_from p three move turn scale p' mt fi t); [exists o, o', f; auto 6|exact Ef|]. clear - F. induction F as [|a b l l' (A & _) F IH]; constructor; assumption. }
  destruct SF as (SF1 & SF2). split; [exact SF1|]. rewrite Es in F.
  pose proof MD as (_ & WI & _). unfold well_indexed in WI. rewrite Forall_forall in WI. destruct (WI f IF) as (WB & _).
  assert (G : forall i, (i < 3)%nat -> forall q id, nth_error (nth fi (pFaces p) []) i = Some q -> nth_error (snd t) i = Some id -> same_vertex scale move p p' q id -> same_skin hundred centi scale move p p' q id).
  { intros i Hi q id Q I SV. split; [exact SV|]. destruct SV as (v & v' & Ev & _). exists v. split; [exact Ev|].
    assert (SX : exists x, nth_error (fVerts f) i = Some x /\ zidx src x = Some q).
    { apply (f_equal (fun l => nth_error l i)) in SR. rewrite !nth_error_map, Q in SR. destruct (nth_error (fVerts f) i) as [x|]; [|discriminate]. exists x. split; [reflexivity|]. cbn [option_map] in SR. congruence. }
    destruct SX as (x & Hx & SX).
    assert (C : nth_error (Mqo2MmdSpec.corners o' (mkFace (fUID f) (fVerts f) (fMaterial f) (fUVs f) (map (option_map turn) (fNormals f)))) i = Some (o', x, nth i (fUVs f) (mkV2 nzero nzero))).
    { unfold Mqo2MmdSpec.corners. cbn [fVerts fUVs]. rewrite nth_error_map. assert (Li : (i < length (fVerts f))%nat) by (apply nth_error_Some; congruence).
      rewrite (nth_error_nth' _ 0%nat) by (rewrite seq_length; exact Li). rewrite seq_nth by exact Li. cbn [option_map Nat.add]. rewrite (nth_error_nth _ _ 0 Hx). reflexivity. }
    destruct (forall2_nth_l _ _ _ _ _ F C) as (id' & I' & _ & HW). assert (id' = id) by congruence. subst id'. cbn [fst snd] in HW.
    rewrite (skin_weights o o' k src fsrc x q v MO MD) in HW; [exact HW| |exact SX|exact Ev|exact W].
    rewrite Forall_forall in WB. apply WB. exact (nth_error_In _ _ Hx). }
  destruct (source_three p three fi L) as (a & b & c & Efc). rewrite Efc in *. inversion SF2 as [|? i1 ? r1 A F1 X1 X2]; subst. inversion F1 as [|? i2 ? r2 B F2]; subst. inversion F2 as [|? i3 ? r3 C F3]; subst. inversion F3; subst.
  rewrite <- X2 in G. constructor; [apply (G 0%nat); [lia|reflexivity|reflexivity|exact A]|]. constructor; [apply (G 1%nat); [lia|reflexivity|reflexivity|exact B]|]. constructor; [apply (G 2%nat); [lia|reflexivity|reflexivity|exact C]|constructor].
Qed.

Theorem pmx_pmx_skin : exists l, Permutation l (seq 0 (length (pFaces p))) /\ Forall2 (same_skin_face hundred centi scale move p p') l (combine (face_owners (pMats p')) (pFaces p')).
Proof.
  destruct skins_from as (P & P1 & P2).
  destruct (to_mmd_faces scale centi dd bones sets p' EP) as (NMS & slices & S1 & S2 & S3).
  destruct (owners_of slices (pMats p') 0 S2) as (OW1 & OW2). cbn zeta in OW1, OW2. fold (face_owners (pMats p')) in OW1, OW2. rewrite <- S1 in OW1, OW2.
  set (n := length (dMaterials dd)) in *.
  assert (HU : fix_ids 0 (dObjects dd) = dObjects dd).
  { apply fix_ids_id. destruct (convert_held hundred facet shuffle shuffle_perm p os bw sets EC CV) as (_ & is & HH & _). pose proof OB as OB0. clear - HH OB0. revert is HH. induction OB0 as [|o o' l l' (_ & U & _) OB' IH]; intros is HH; inversion HH as [|? i ? is' (_ & H & _) HH']; subst; constructor; [rewrite U; exact H | exact (IH _ HH')]. }
  assert (S4 : Forall2 (fun k s => Forall2 (Forall2 (fun c id => at_corner scale p' id c /\ has_weights p' id (firstn 4 (weights_of centi (fst (fst c)) bones (snd (fst c)))))) (material_triangles sets (dObjects dd) (Z.of_nat k)) s) (seq 0 n) slices).
  { apply f2_at in S3. eapply f2_weak; [|exact S3]. intros k s (H & kk & K1 & K2).
    assert (kk = k) by (assert ((kk < n)%nat) by (rewrite <- (seq_length n 0); apply nth_error_Some; congruence); rewrite (nth_error_nth' _ 0%nat) in K1 by (rewrite seq_length; assumption); rewrite seq_nth in K1 by assumption; cbn in K1; congruence). subst kk.
    apply f2_at in H. eapply f2_weak; [|exact H]. intros tri ids (H' & j & J1 & J2). apply f2_at in H'. eapply f2_weak; [|exact H']. intros [[o v] uv] id (A & i & I1 & I2). split; [exact A|]. cbn [fst snd].
    apply (to_mmd_weights scale centi dd bones sets p' o v uv id EP). exists slices, k, s, tri, ids, i. rewrite HU. repeat (split; [assumption|]). exists j. auto. }
  assert (FF : Forall2 (fun mt t => fst mt = Z.of_nat (fst t) /\ Forall2 (fun c id => at_corner scale p' id c /\ has_weights p' id (firstn 4 (weights_of centi (fst (fst c)) bones (snd (fst c))))) (snd mt) (snd t))
    (flat_map (fun k => filter (fun e => fst e =? Z.of_nat k) (all_tagged sets (dObjects dd))) (seq 0 n)) (combine (face_owners (pMats p')) (pFaces p'))).
  { rewrite OW2. clear - S4. assert (LS : length slices = n) by (apply f2_length in S4; rewrite seq_length in S4; congruence). rewrite LS. clear LS. revert S4. generalize (seq 0 n) as ks. intros ks S4. induction S4 as [|k s ks slices H S4 IH]; [constructor|]. cbn [combine flat_map fst snd]. apply Forall2_app; [|exact IH].
    rewrite <- of_material. clear - H. induction H; cbn [map]; constructor; [split; [reflexivity|assumption]|assumption]. }
  assert (PE : Permutation (all_tagged sets (dObjects dd)) (flat_map (fun k => filter (fun e => fst e =? Z.of_nat k) (all_tagged sets (dObjects dd))) (seq 0 n))).
  { eapply Permutation_trans; [|apply by_number]. rewrite filter_whole; [reflexivity|]. intros e He. apply In_nth_error in He as (j & He). destruct (forall2_nth_l _ _ _ _ _ P1 He) as (fi & _ & (o & o' & f & _ & _ & _ & _ & R & _ & Em & _)).
    unfold resolve, source in R. injection R as R0 _ _ _. symmetry in R0. apply owner_bound in R0. rewrite <- Em in R0.
    assert (Ln : (length (pMats p) <= n)%nat). { unfold n. rewrite <- (map_length (@mtName T)), MN, app_length, map_length. lia. }
    destruct (Z.leb_spec 0 (fst e)), (Z.ltb_spec (fst e) (Z.of_nat n)); try reflexivity; lia. }
  destruct (forall2_perm _ _ _ _ P1 PE) as (L & PL & FL). exists L. split; [exact (Permutation_trans (Permutation_sym PL) P2)|].
  assert (SK : forall mt fi t, skin_from mt fi -> fst mt = Z.of_nat (fst t) -> Forall2 (fun c id => at_corner scale p' id c /\ has_weights p' id (firstn 4 (weights_of centi (fst (fst c)) bones (snd (fst c))))) (snd mt) (snd t) -> same_skin_face hundred centi scale move p p' fi t) by exact skin_face.
  clear - FL FF SK. revert L FL. induction FF as [|mt t l ts (A & B) FF IH]; intros L FL; inversion FL as [|? fi ? L' C FL']; subst; constructor; [eapply SK; eassumption | apply IH; exact FL'].
Qed.
End Proofs.

(** *** Exact numbers *)
From Coq Require Import Reals.
From Verif.Model Require Import NumR.

Section Exact.
Variables (hundred centi : R) (p : pmodel R) (v : pvert R).
Hypothesis HC : (hundred * centi = 1)%R.
Hypothesis one : forall b, (length (weights_for v b) <= 1)%nat.
Hypothesis known : Forall (fun b => 0 <= b < Z.of_nat (pNBones p)) (pvBones v).

Definition part (b : nat) : list (Z * R) := map (fun w => (Z.of_nat b, nmul w centi)) (percent hundred (weights_for v (Z.of_nat b))).
Lemma part_exact b : part b = map (fun w => (Z.of_nat b, w)) (weights_for v (Z.of_nat b)).
Proof.
  unfold part. specialize (one (Z.of_nat b)). destruct (weights_for v (Z.of_nat b)) as [|w [|]]; [reflexivity| |cbn in one; lia]. cbn [percent fold_left map nmul RNum].
  replace (hundred * w * centi)%R with w; [reflexivity|]. transitivity (w * (hundred * centi))%R; [rewrite HC; ring | ring].
Qed.
Lemma in_weights_for b w : In w (weights_for v b) <-> In (b, w) (combine (pvBones v) (pvWeights v)) /\ (0 < w)%R.
Proof.
  unfold weights_for. rewrite in_map_iff. split.
  - intros ([b' w'] & E & H). cbn [snd] in E. subst w'. apply filter_In in H as (H & G). cbn [fst snd] in G. apply andb_true_iff in G as (G1 & G2). apply Z.eqb_eq in G1. subst b'. split; [exact H|].
    cbn [nltb nzero RNum] in G2. unfold Rltb in G2. destruct (Rlt_dec 0 w); [assumption|discriminate].
  - intros (H & P). exists (b, w). split; [reflexivity|]. apply filter_In. split; [exact H|]. cbn [fst snd]. rewrite Z.eqb_refl. cbn [andb nltb nzero RNum]. unfold Rltb. destruct (Rlt_dec 0 w); [reflexivity|contradiction].
Qed.
Lemma skin_in b w : In (b, w) (skin_over hundred centi p v) <-> In (b, w) (combine (pvBones v) (pvWeights v)) /\ (0 < w)%R.
Proof.
  unfold skin_over. rewrite in_flat_map. split.
  - intros (k & _ & H). fold (part k) in H. rewrite part_exact in H. apply in_map_iff in H as (x & E & H). injection E as <- <-. now apply in_weights_for.
  - intros H. pose proof (proj1 H) as K. apply in_combine_l in K. rewrite Forall_forall in known. specialize (known b K). exists (Z.to_nat b). split; [apply in_seq; lia|]. fold (part (Z.to_nat b)). rewrite part_exact, Z2Nat.id by lia. apply in_map_iff. exists w. split; [reflexivity|]. now apply in_weights_for.
Qed.
Lemma skin_nodup : NoDup (map fst (skin_over hundred centi p v)).
Proof.
  unfold skin_over. clear known. generalize 0%nat as k. induction (pNBones p) as [|n IH]; intros k; [constructor|]. cbn [seq flat_map]. rewrite map_app. fold (part k). rewrite part_exact.
  specialize (IH (S k)). pose proof (one (Z.of_nat k)) as O1. destruct (weights_for v (Z.of_nat k)) as [|w [|]]; [exact IH| |cbn in O1; lia]. cbn [map app fst]. constructor; [|exact IH].
  intros I. apply in_map_iff in I as ([b x] & E & I). cbn [fst] in E. subst b. apply in_flat_map in I as (j & J & I). apply in_seq in J. fold (part j) in I. rewrite part_exact in I. apply in_map_iff in I as (y & E & _). injection E as E _. lia.
Qed.
Lemma skin_length : (length (skin_over hundred centi p v) <= length (pvBones v))%nat.
Proof.
  rewrite <- (map_length fst). apply NoDup_incl_length; [exact skin_nodup|]. intros b I. apply in_map_iff in I as ([b' w] & E & I). cbn [fst] in E. subst b'. apply skin_in in I as (I & _). exact (in_combine_l _ _ _ _ I).
Qed.
Lemma skin_exact (p' : pmodel R) id' : (length (pvBones v) <= 4)%nat -> has_weights p' id' (firstn 4 (skin_over hundred centi p v)) ->
  exists v', zidx (pVerts p') id' = Some v' /\ NoDup (pvBones v') /\ forall b w, In (b, w) (combine (pvBones v') (pvWeights v')) <-> In (b, w) (combine (pvBones v) (pvWeights v)) /\ (0 < w)%R.
Proof.
  intros L (x & E & B & W). exists x. split; [exact E|]. rewrite firstn_all2 in B, W by (pose proof skin_length; lia). rewrite B, W. split; [exact skin_nodup|]. intros b w.
  replace (combine _ _) with (skin_over hundred centi p v); [apply skin_in|]. generalize (skin_over hundred centi p v) as l. induction l as [|[c y] l IH]; [reflexivity|]. cbn [map combine fst snd]. now rewrite <- IH.
Qed.
End Exact.

Lemma nodup_once {T} {N : Num T} (p : pmodel T) : Forall (fun v => NoDup (pvBones v)) (pVerts p) -> once p.
Proof.
  intros H v b I. rewrite Forall_forall in H. specialize (H v I). unfold weights_for. rewrite map_length. revert H. generalize (pvWeights v) as ws. induction (pvBones v) as [|c bs IH]; intros ws ND; [cbn; lia|].
  destruct ws as [|w ws]; [cbn; lia|]. inversion ND; subst. cbn [combine filter fst snd]. destruct (Z.eqb_spec c b) as [->|]; cbn [andb]; [|apply IH; assumption].
  assert (E : filter (fun e => (fst e =? b) && nltb nzero (snd e)) (combine bs ws) = []).
  { clear - H1. revert ws. induction bs as [|c bs IH]; intros [|w ws]; try reflexivity. cbn [combine filter fst snd]. destruct (Z.eqb_spec c b) as [->|]; [destruct H1; left; reflexivity|]. cbn [andb]. apply IH. intros I. apply H1. right. exact I. }
  destruct (nltb nzero w); cbn [length]; rewrite E; cbn; lia.
Qed.
