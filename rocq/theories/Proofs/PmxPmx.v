(** From PMX over MQO to PMX. *)
From Coq Require Import String List ZArith Bool Lia Permutation.
From Verif.Model Require Import Num Vec Matrix Mqo MqoDoc Mmd2Mqo Mqo2Mmd.
From Verif Require Import Spec.MmdConvSpec Spec.Mqo2MmdSpec Spec.GltfSpec Spec.DrawnSpec Spec.FbxPmxSpec Spec.PmxPmxSpec.
From Verif Require Import Proofs.Mmd2MqoProofs Proofs.Mqo2MmdTop Proofs.DrawnLemmas Proofs.DrawnConv Proofs.DrawnProofs Proofs.DrawnFbx Proofs.GltfSceneProofs Proofs.FbxPmx.
Import ListNotations.
Local Open Scope Z_scope.
Local Open Scope list_scope.

Section Proofs.
Context {T : Type} {N : Num T}.
Variables (hundred facet : T) (shuffle : vmap -> vmap).
Hypothesis shuffle_perm : forall m, Permutation (shuffle m) m.
Variables (p : pmodel T) (os : list (object T)) (bw : bone_weights (T := T)) (sets : list target_list).
Hypothesis EC : convert hundred facet shuffle p = Some (os, bw, sets).
Hypothesis CV : covers p.
Hypothesis three : Forall (fun f => length f = 3%nat) (pFaces p).
Hypothesis names : forall m, In m (pMorphs p) -> ~ mesh_name (phName m).
Variables (move turn : vec3 T -> vec3 T) (dd : document T).
Hypothesis OB : Forall2 (moved_object move turn) os (dObjects dd).

(** Triangle [mt] of the MQO document is face [fi]. *)
Definition comes_from (mt : Z * list (corner (T:=T))) (fi : nat) : Prop :=
  exists o o' f, moved_object move turn o o' /\ resolve o f = source p fi /\ (fi < length (pFaces p))%nat /\ fst mt = fMaterial f /\
    snd mt = Mqo2MmdSpec.corners o' (mkFace (fUID f) (fVerts f) (fMaterial f) (fUVs f) (map (option_map turn) (fNormals f))).

Lemma source_three fi : (fi < length (pFaces p))%nat -> exists a b c, nth fi (pFaces p) [] = [a; b; c].
Proof.
  intros H. rewrite Forall_forall in three. specialize (three (nth fi (pFaces p) []) (nth_In _ _ H)).
  destruct (nth fi (pFaces p) []) as [|a [|b [|c [|? ?]]]]; try discriminate. eauto.
Qed.
Lemma face_tagged o o' f fi : moved_object move turn o o' -> resolve o f = source p fi -> (fi < length (pFaces p))%nat ->
  Forall2 comes_from (tagged o' (mkFace (fUID f) (fVerts f) (fMaterial f) (fUVs f) (map (option_map turn) (fNormals f)))) [fi].
Proof.
  intros MO E L. pose proof E as E'. unfold resolve, source in E'. destruct (source_three fi L) as (a & b & c & Ef). rewrite Ef in E'. cbn [map] in E'. injection E' as _ E1 _ _.
  destruct (fVerts f) as [|x [|y [|z [|]]]] eqn:Fv; try discriminate E1.
  assert (Et : tagged o' (mkFace (fUID f) [x; y; z] (fMaterial f) (fUVs f) (map (option_map turn) (fNormals f))) =
    [(fMaterial f, Mqo2MmdSpec.corners o' (mkFace (fUID f) [x; y; z] (fMaterial f) (fUVs f) (map (option_map turn) (fNormals f))))]) by reflexivity.
  rewrite Et. constructor; [|constructor]. exists o, o', f. rewrite Fv. auto 6.
Qed.
Lemma tagged_from : exists P, Forall2 comes_from (all_tagged sets (dObjects dd)) P /\ Permutation P (seq 0 (length (pFaces p))).
Proof.
  destruct (convert_held hundred facet shuffle shuffle_perm p os bw sets EC CV) as (_ & is & HH & PF).
  destruct (convert_made hundred facet shuffle _ _ _ _ EC) as (_ & SO).
  exists (flat_map info_faces is). split; [|exact PF].
  assert (RG : forall fi, In fi (flat_map info_faces is) -> (fi < length (pFaces p))%nat).
  { intros fi I. apply (Permutation_in _ PF), in_seq in I. lia. }
  clear PF. unfold all_tagged. revert is HH RG. pose proof OB as OB0. clear EC OB. induction OB0 as [|o o' l l' M OB' IH]; intros is HH RG; inversion HH as [|? i ? is' H HH']; subst; [constructor|].
  cbn [flat_map] in *. specialize (IH is' HH' (fun fi I => RG fi (in_or_app _ _ _ (or_intror I)))).
  pose proof M as (_ & _ & Na & Vs & _ & _ & _ & Fa). destruct H as ((_ & _ & Md) & _ & Hi & _).
  cbn [filter]. destruct i as [k src fsrc|]; cbn [info_faces] in *.
  - destruct Hi as (Vi & _ & R). destruct Md as [(_ & _ & _ & Mn)|(_ & V0)]; [|congruence].
    assert (Ex : exported sets o' = true).
    { unfold exported. rewrite Vs, Vi. cbn [andb]. apply negb_true_iff. destruct (existsb _ sets) eqn:Ee; [|reflexivity]. exfalso.
      apply existsb_exists in Ee as (s & Hs & Ee). apply existsb_exists in Ee as (t & Ht & Et). apply String.eqb_eq in Et. subst t.
      unfold sets_ok in SO. rewrite Forall_forall in SO. specialize (SO s Hs). rewrite Forall_forall in SO. specialize (SO _ Ht).
      apply in_map_iff in SO as (m & Hm & Hin). apply (names m Hin). rewrite Hm, Na. exact Mn. }
    rewrite Ex. cbn [flat_map]. apply Forall2_app; [|exact IH]. rewrite Fa. clear IH HH HH' Vi Ex Fa.
    assert (RF : forall fi, In fi fsrc -> (fi < length (pFaces p))%nat) by (intros fi I; apply RG, in_or_app; left; exact I). clear RG.
    revert fsrc R RF. induction (oFaces o) as [|f fs IHf]; intros [|fi fsrc] R RF; try discriminate R; [constructor|]. pose proof (f_equal (@hd_error _) R) as R1. pose proof (f_equal (@tl _) R) as R2. cbn [map hd_error tl] in R1, R2. assert (R3 : resolve o f = source p fi) by congruence.
    cbn [map flat_map]. change (fi :: fsrc) with ([fi] ++ fsrc). apply Forall2_app; [|apply IHf; [exact R2 | intros x I; apply RF; right; exact I]].
    apply (face_tagged o o' f fi M R3). apply RF. left. reflexivity.
  - assert (Ex : exported sets o' = false) by (unfold exported; rewrite Vs, Hi; reflexivity). rewrite Ex. exact IH.
Qed.

Theorem pmx_pmx_total (scale centi : T) bones : to_mmd scale centi dd bones sets <> None.
Proof.
  apply to_mmd_total. unfold valid_faces. apply Forall_forall. intros o' Ho'.
  destruct (convert_made hundred facet shuffle _ _ _ _ EC) as (MD & _). rewrite Forall_forall in MD.
  destruct (GltfSceneProofs.forall2_in_r _ _ _ OB o' Ho') as (o & Ho & (V & _ & _ & _ & _ & _ & _ & Fa)). destruct (MD o Ho) as (_ & WI & _).
  unfold well_indexed in WI. rewrite Fa, V, map_length, Forall_map. cbn [fVerts]. eapply Forall_impl; [|exact WI]. cbn. tauto.
Qed.

Variables (scale centi : T) (bones : list (bone T)) (p' : pmodel T) (extra : list string).
Hypothesis MN : map (@mtName T) (dMaterials dd) = map pmName (pMats p) ++ extra.
Hypothesis EP : to_mmd scale centi dd bones sets = Some p'.

Lemma owner_bound mats : forall k fi i, owner mats k fi = Some i -> k <= i < k + Z.of_nat (length mats).
Proof.
  induction mats as [|m mats IH]; intros k fi i E; [discriminate|]. cbn [owner length] in *. destruct (fi <? _)%nat; [injection E as <-; lia|]. apply IH in E. lia.
Qed.
Lemma from_corner (o o' : object T) x u id q w : moved_object move turn o o' -> at_corner scale p' id (o', x, u) ->
  zidx (oVerts o) x = option_map (fun v => flip_z (pvPos v)) (zidx (pVerts p) q) -> Some u = option_map w (zidx (pVerts p) q) -> w = (fun v => pvUV v) ->
  same_vertex scale move p p' q id.
Proof.
  intros (V & _) (v' & r & Ev & Er & Ep & Eu) Ex Ew ->. rewrite V in Er. unfold zidx in Er, Ex. destruct (x <? 0); [discriminate Er|]. rewrite nth_error_map in Er.
  fold (zidx (pVerts p) q) in Ex. rewrite Ex in Er. destruct (zidx (pVerts p) q) as [v|] eqn:Eq; [|discriminate Er]. cbn [option_map] in Er, Ew. injection Er as <-. injection Ew as ->.
  exists v, v'. auto.
Qed.
Lemma face_from mt fi t : comes_from mt fi -> fst mt = Z.of_nat (fst t) -> Forall2 (fun c id => at_corner scale p' id c) (snd mt) (snd t) -> same_face scale move p p' fi t.
Proof.
  intros (o & o' & f & MO & R & L & Em & Es) Ef F. rewrite Es in F. unfold resolve, source in R. injection R as R0 R1 R2 _. split; [rewrite <- R0, <- Em, Ef; reflexivity|].
  destruct (source_three fi L) as (a & b & c & Efc). rewrite Efc in *. cbn [map] in R1, R2.
  destruct (fVerts f) as [|x [|y [|z [|]]]] eqn:Fv; try discriminate R1. destruct (fUVs f) as [|u [|v [|w [|]]]] eqn:Fu; try discriminate R2.
  cbn [map] in R1, R2. injection R1 as X Y Z0. injection R2 as U V W. unfold Mqo2MmdSpec.corners in F. cbn [fVerts fUVs length seq map nth] in F.
  inversion F as [|? i1 ? r1 A F1]; subst. inversion F1 as [|? i2 ? r2 B F2]; subst. inversion F2 as [|? i3 ? r3 C F3]; subst. inversion F3; subst.
  repeat constructor; eapply from_corner; eauto.
Qed.

Theorem pmx_pmx_faces : length (face_owners (pMats p')) = length (pFaces p') /\ map pmName (pMats p') = map pmName (pMats p) ++ extra /\
  exists l, Permutation l (seq 0 (length (pFaces p))) /\ Forall2 (same_face scale move p p') l (combine (face_owners (pMats p')) (pFaces p')).
Proof.
  destruct tagged_from as (P & P1 & P2).
  destruct (to_mmd_faces scale centi dd bones sets p' EP) as (NMS & slices & S1 & S2 & S3).
  destruct (owners_of slices (pMats p') 0 S2) as (OW1 & OW2). cbn zeta in OW1, OW2. fold (face_owners (pMats p')) in OW1, OW2. rewrite <- S1 in OW1, OW2.
  split; [exact OW1|]. split; [congruence|].
  set (n := length (dMaterials dd)) in *.
  assert (FF : Forall2 (fun mt t => fst mt = Z.of_nat (fst t) /\ Forall2 (fun c id => at_corner scale p' id c) (snd mt) (snd t))
    (flat_map (fun k => filter (fun e => fst e =? Z.of_nat k) (all_tagged sets (dObjects dd))) (seq 0 n)) (combine (face_owners (pMats p')) (pFaces p'))).
  { rewrite OW2. clear - S3. assert (LS : length slices = n) by (apply f2_length in S3; rewrite seq_length in S3; congruence). rewrite LS. clear LS. revert S3. generalize (seq 0 n) as ks. intros ks S3. induction S3 as [|k s ks slices H S3 IH]; [constructor|]. cbn [combine flat_map fst snd]. apply Forall2_app; [|exact IH].
    rewrite <- of_material. clear - H. induction H; cbn [map]; constructor; [split; [reflexivity|assumption]|assumption]. }
  assert (PE : Permutation (all_tagged sets (dObjects dd)) (flat_map (fun k => filter (fun e => fst e =? Z.of_nat k) (all_tagged sets (dObjects dd))) (seq 0 n))).
  { eapply Permutation_trans; [|apply by_number]. rewrite filter_whole; [reflexivity|]. intros e He. apply In_nth_error in He as (j & He). destruct (forall2_nth_l _ _ _ _ _ P1 He) as (fi & _ & (o & o' & f & _ & R & _ & Em & _)).
    unfold resolve, source in R. injection R as R0 _ _ _. symmetry in R0. apply owner_bound in R0. rewrite <- Em in R0.
    assert (Ln : (length (pMats p) <= n)%nat). { unfold n. rewrite <- (map_length (@mtName T)), MN, app_length, map_length. lia. }
    destruct (Z.leb_spec 0 (fst e)), (Z.ltb_spec (fst e) (Z.of_nat n)); try reflexivity; lia. }
  destruct (forall2_perm _ _ _ _ P1 PE) as (L & PL & FL). exists L. split; [exact (Permutation_trans (Permutation_sym PL) P2)|].
  clear - FL FF three. revert L FL. induction FF as [|mt t l ts (A & B) FF IH]; intros L FL; inversion FL as [|? fi ? L' C FL']; subst; constructor; [eapply face_from; eassumption | apply IH; exact FL'].
Qed.
Theorem pmx_pmx_count : length (pFaces p') = length (pFaces p).
Proof.
  destruct pmx_pmx_faces as (E & _ & l & P & F). apply Permutation_length in P. rewrite seq_length in P. apply f2_length in F. rewrite combine_length in F. lia.
Qed.
End Proofs.
