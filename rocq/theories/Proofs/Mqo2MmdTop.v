(** The MQO to PMX conversion: the theorems about whole documents. *)
From Coq Require Import String List ZArith Bool Lia Permutation.
From Verif.Model Require Import Num Vec Matrix Mqo MqoDoc Mmd2Mqo Normals Mqo2Mmd.
From Verif Require Import Spec.PmxSpec Spec.NormalsSpec Spec.MmdConvSpec Spec.Mqo2MmdSpec Proofs.MqoObjProofs Proofs.MqoDocProofs
  Proofs.NormalsProofs Proofs.Mmd2MqoGroups Proofs.Mmd2MqoFaces Proofs.Mmd2MqoProofs Proofs.Mqo2MmdProofs.
Import ListNotations.
Local Open Scope Z_scope.
Local Open Scope list_scope.

Section Top.
Context {T : Type} {N : Num T}.
Variables (scale centi : T).

Lemma fix_ids_forall (P : object T -> Prop) (os : list (object T)) : (forall o u, P o -> P (set_uid o u)) -> Forall P os ->
  forall i, Forall P (fix_ids i os).
Proof.
  intros K H. induction H as [|o os Ho H IH]; intros i; cbn [fix_ids]; constructor; [|apply IH]. destruct (oUID o =? 0); auto.
Qed.
Lemma valid_fix (d : document T) : valid_faces d -> Forall valid_object (fix_ids 0 (dObjects d)).
Proof. intros V. apply fix_ids_forall; [|exact V]. intros o u H. destruct o; exact H. Qed.

(** *** No crash *)

Lemma conv_corners_total objs targets (o : object T) normals f verts : length normals = length (oVerts o) ->
  Forall (fun v => 0 <= v < Z.of_nat (length (oVerts o))) verts ->
  forall i st, conv_corners scale objs targets o normals f i verts st <> None.
Proof.
  intros L H. induction H as [|v verts Hv H IH]; intros i st; cbn [conv_corners]; [discriminate|].
  assert (exists r, conv_corner scale objs targets o normals f i v st = Some r) as ([id st'] & ->).
  { unfold conv_corner. destruct (find_key _ _); [eauto|]. destruct (zidx (oVerts o) v) eqn:E1; [|apply zidx_None in E1; lia].
    destruct (zidx normals v) eqn:E2; [eauto|apply zidx_None in E2; lia]. }
  specialize (IH (S i) st'). destruct (conv_corners _ _ _ _ _ _ _ _ _) as [[? ?]|]; [discriminate|congruence].
Qed.
Lemma obj_faces_total objs targets (o : object T) normals mi fs : length normals = length (oVerts o) ->
  Forall (fun f => Forall (fun v => 0 <= v < Z.of_nat (length (oVerts o))) (fVerts f)) fs ->
  forall st, obj_faces scale objs targets o normals mi fs st <> None.
Proof.
  intros L H. induction H as [|f fs Hf H IH]; intros st; cbn [obj_faces]; [discriminate|].
  destruct (_ || _); [apply IH|]. pose proof (conv_corners_total objs targets o normals f (fVerts f) L Hf 0 st) as C.
  destruct (conv_corners _ _ _ _ _ _ _ _ _) as [[ids st']|]; [|congruence]. specialize (IH st').
  destruct (obj_faces _ _ _ _ _ _ _ _) as [[? ?]|]; [discriminate|congruence].
Qed.
Lemma mat_objects_total objs sets bones mi os : Forall valid_object os ->
  forall vs ms, mat_objects scale centi objs sets bones mi os vs ms <> None.
Proof.
  intros H. induction H as [|o os Ho H IH]; intros vs ms; cbn [mat_objects]; [discriminate|].
  destruct (_ || _); [apply IH|]. destruct (smooth_normals_spec o Ho) as (ns & -> & L & _).
  pose proof (obj_faces_total objs (base_targets sets (oName o)) o ns mi (oFaces o) L Ho (mkMS vs ms [] [])) as C.
  destruct (obj_faces _ _ _ _ _ _ _ _) as [[fs st]|]; [|congruence].
  specialize (IH (set_weights centi o (msVmap st) 0 bones (msVerts st)) (msMorphs st)).
  destruct (mat_objects _ _ _ _ _ _ _ _ _) as [[[? ?] ?]|]; [discriminate|congruence].
Qed.
Lemma all_mats_total objs sets bones names : Forall valid_object objs ->
  forall mi vs ms, all_mats scale centi objs sets bones mi names vs ms <> None.
Proof.
  intros H. induction names as [|n names IH]; intros mi vs ms; cbn [all_mats]; [discriminate|].
  pose proof (mat_objects_total objs sets bones mi objs H vs ms) as C.
  destruct (mat_objects _ _ _ _ _ _ _ _ _) as [[[fs vs'] ms']|]; [|congruence]. specialize (IH (mi + 1) vs' ms').
  destruct (all_mats _ _ _ _ _ _ _ _ _) as [[[[? ?] ?] ?]|]; [discriminate|congruence].
Qed.
Theorem to_mmd_total (d : document T) bones sets : valid_faces d -> to_mmd scale centi d bones sets <> None.
Proof.
  intros V. unfold to_mmd. pose proof (all_mats_total _ sets bones (map (@mtName T) (dMaterials d)) (valid_fix d V) 0 [] (new_morphs sets)) as C.
  destruct (all_mats _ _ _ _ _ _ _ _ _) as [[[[? ?] ?] ?]|]; [discriminate|congruence].
Qed.

(** *** Everything about the result *)

Lemma no_verts P id x : zidx (A := pvert T) [] id = Some x -> P x.
Proof. intros H. apply zidx_bound in H. cbn in H. lia. Qed.

Lemma new_morphs_none sets t e : ~ offset_in (T := T) (new_morphs sets) t e.
Proof.
  intros (m & H & _ & He). unfold new_morphs in H. apply in_flat_map in H as (s & _ & H). apply in_map_iff in H as (x & <- & _). destruct He.
Qed.
Lemma new_morphs_names sets : map (@phName T) (new_morphs sets) = flat_map tlTargets sets.
Proof.
  unfold new_morphs. induction sets as [|s sets IH]; [reflexivity|]. cbn [flat_map]. rewrite map_app, IH, map_map. f_equal. apply map_id.
Qed.
Lemma base_targets_of sets base : base_targets sets base = [] /\ ~ In base (map tlBase sets) \/ targets_of sets base (base_targets sets base).
Proof.
  unfold base_targets. destruct (last_index _ sets) as [i|] eqn:E.
  - right. apply last_index_Some in E as (a & s & b & -> & <- & Q & F). rewrite nth_error_app2, Nat.sub_diag by lia. cbn [nth_error].
    exists a, s, b. split; [reflexivity|]. split; [apply String.eqb_eq; exact Q|]. split; [|reflexivity].
    eapply Forall_impl; [|exact F]. intros y. cbn. apply String.eqb_neq.
  - left. split; [reflexivity|]. apply last_index_None in E. intros H. apply in_map_iff in H as (s & <- & H). rewrite Forall_forall in E.
    specialize (E s H). rewrite String.eqb_refl in E. discriminate.
Qed.
Lemma targets_of_base sets base l : targets_of sets base l -> base_targets sets base = l.
Proof.
  intros (a & s & b & -> & <- & F & ->). destruct (base_targets_of (a ++ s :: b) (tlBase s)) as [(_ & C)|H].
  - exfalso. apply C. rewrite map_app, in_app_iff. right. left. reflexivity.
  - destruct H as (a' & s' & b' & E & Q & F' & ->). f_equal. clear -E Q F F'.
    revert a' E. induction a as [|x a IH]; intros [|x' a'] E; cbn in E.
    + injection E as -> _. reflexivity.
    + injection E as <- ->. rewrite Forall_forall in F. exfalso. apply (F s'); [|exact Q]. apply in_app_iff. right. left. reflexivity.
    + injection E as -> <-. rewrite Forall_forall in F'. exfalso. apply (F' s); [|reflexivity]. apply in_app_iff. right. left. reflexivity.
    + injection E as -> E. eapply IH. exact E.
Qed.
Lemma base_targets_in sets base t : In t (base_targets sets base) -> In t (flat_map tlTargets sets).
Proof.
  unfold base_targets. destruct (last_index _ sets) as [i|]; [|intros []]. destruct (nth_error sets i) as [s|] eqn:E; [|intros []].
  intros H. apply in_flat_map. exists s. split; [eapply nth_error_In; exact E|exact H].
Qed.

Theorem to_mmd_spec (d : document T) bones sets p : to_mmd scale centi d bones sets = Some p ->
  let objs := fix_ids 0 (dObjects d) in
  (forall id x, zidx (pVerts p) id = Some x -> vert_ok bones x) /\
  sound scale objs sets objs [] (pVerts p) (pMorphs p) /\
  map (@phName T) (pMorphs p) = flat_map tlTargets sets /\ pNBones p = length bones /\
  map pmName (pMats p) = map (@mtName T) (dMaterials d) /\
  exists slices, pFaces p = concat slices /\ map pmCount (pMats p) = map (fun s => 3 * Z.of_nat (length s)) slices /\
    Forall2 (fun k s => Forall2 (Forall2 (good scale centi objs sets bones (pVerts p) (pMorphs p)))
                          (material_triangles sets objs (Z.of_nat k)) s) (seq 0 (length (dMaterials d))) slices.
Proof.
  intros E objs. unfold to_mmd in E. fold objs in E.
  destruct (all_mats _ _ _ _ _ _ _ _ _) as [[[[mats fs] vs] ms]|] eqn:E1; [|discriminate]. injection E as <-.
  destruct (all_mats_spec scale centi objs sets bones _ _ _ _ _ _ _ _ E1 (fun id x => no_verts _ id x)) as (_ & (M & _) & V & S0 & Nm & sl & S1 & S2 & S3).
  cbn [pVerts pMorphs pFaces pMats pNBones]. split; [exact V|]. split.
  { intros t e H. destruct (S0 t e H) as [G|G]; [exfalso; eapply new_morphs_none; exact G|]. right. exact G. }
  split; [rewrite M; apply new_morphs_names|]. split; [reflexivity|]. split; [exact Nm|]. exists sl. split; [exact S1|]. split; [exact S2|].
  rewrite map_length in S3. exact S3.
Qed.

(** Corners of objects with and without the new ids. *)
Definition same_corner (c c' : corner (T := T)) : Prop :=
  oVerts (fst (fst c)) = oVerts (fst (fst c')) /\ snd (fst c) = snd (fst c') /\ snd c = snd c'.
Lemma fixed_corners sets mi (os : list (object T)) : forall i,
  Forall2 (Forall2 same_corner) (material_triangles sets os mi) (material_triangles sets (fix_ids i os) mi).
Proof.
  unfold material_triangles. induction os as [|o os IH]; intros i; [constructor|]. cbn [fix_ids].
  set (o' := if oUID o =? 0 then set_uid o (i + 1) else o).
  assert (K : oVerts o' = oVerts o /\ oFaces o' = oFaces o /\ oName o' = oName o /\ oVisible o' = oVisible o)
    by (unfold o'; destruct (oUID o =? 0); destruct o; auto).
  clearbody o'. destruct K as (K1 & K2 & K3 & K4). cbn [filter].
  assert (Ex : exported sets o' = exported sets o) by (unfold exported; rewrite K3, K4; reflexivity). rewrite Ex.
  destruct (exported sets o); [|apply IH]. cbn [flat_map]. apply Forall2_app; [|apply IH]. rewrite K2.
  clear K2. induction (oFaces o) as [|f fs IHf]; [constructor|]. cbn [flat_map]. apply Forall2_app; [|exact IHf].
  destruct (fMaterial f =? mi); [|constructor]. apply triangles_forall2. unfold corners.
  induction (seq 0 (length (fVerts f))); constructor; auto. split; [exact (eq_sym K1)|]. split; reflexivity.
Qed.

Lemma forall2_trans {A B C} (P : A -> B -> Prop) (Q : B -> C -> Prop) (R : A -> C -> Prop) : (forall a b c, P a b -> Q b c -> R a c) ->
  forall l m n, Forall2 P l m -> Forall2 Q m n -> Forall2 R l n.
Proof. intros H l m n F. revert n. induction F; intros n G; inversion G; subst; constructor; eauto. Qed.

Theorem to_mmd_faces (d : document T) bones sets p : to_mmd scale centi d bones sets = Some p ->
  map pmName (pMats p) = map (@mtName T) (dMaterials d) /\
  exists slices, pFaces p = concat slices /\ map pmCount (pMats p) = map (fun s => 3 * Z.of_nat (length s)) slices /\
    Forall2 (fun k s => Forall2 (Forall2 (fun c id => at_corner scale p id c)) (material_triangles sets (dObjects d) (Z.of_nat k)) s)
            (seq 0 (length (dMaterials d))) slices.
Proof.
  intros E. destruct (to_mmd_spec d bones sets p E) as (_ & _ & _ & _ & Nm & sl & S1 & S2 & S3). split; [exact Nm|]. exists sl.
  split; [exact S1|]. split; [exact S2|]. eapply forall2_weak; [|exact S3]. intros k s H.
  eapply forall2_trans; [|apply (fixed_corners sets (Z.of_nat k) (dObjects d) 0)|exact H]. intros t t' ids Ht H'.
  eapply forall2_trans; [|exact Ht|exact H']. intros [[o v] uv] [[o' v'] uv'] id (K1 & K2 & K3) G. cbn [fst snd] in *. subst v' uv'.
  destruct G as (x & q & ns & A1 & A2 & A3 & A4 & A5 & A6 & _). exists x, q. rewrite K1. auto.
Qed.

Theorem to_mmd_total_count (d : document T) bones sets p : to_mmd scale centi d bones sets = Some p ->
  fold_right Z.add 0 (map pmCount (pMats p)) = 3 * Z.of_nat (length (pFaces p)).
Proof.
  intros E. destruct (to_mmd_spec d bones sets p E) as (_ & _ & _ & _ & _ & sl & S1 & S2 & _). rewrite S1, S2. clear.
  induction sl as [|s sl IH]; [reflexivity|]. cbn [map fold_right concat]. rewrite IH, app_length. lia.
Qed.

Theorem to_mmd_proper (d : document T) bones sets p : to_mmd scale centi d bones sets = Some p -> proper p.
Proof.
  intros E. destruct (to_mmd_spec d bones sets p E) as (V & S0 & M & NB & _ & sl & S1 & S2 & S3). constructor.
  - rewrite S1. apply Forall_concat. clear -S3. induction S3 as [|k s ks sl H F IH]; constructor; [|exact IH].
    clear -H. induction H as [|t ids ts l H F IH]; constructor; [|exact IH]. clear -H. induction H as [|c id cs l H F IH]; constructor; [|exact IH].
    destruct c as [[o v] uv]. destruct H as (x & q & ns & A & _). eapply zidx_bound. exact A.
  - apply Forall_forall. intros m Hm. apply Forall_app. split.
    + apply Forall_forall. intros id Hid. apply in_map_iff in Hid as ([id' off] & <- & Hid).
      destruct (S0 (phName m) (id', off)) as [(m' & [] & _)|(o & v & b & q & x & k & _ & _ & _ & _ & _ & Hk & _ & Eq)]; [exists m; auto|].
      injection Eq as <- _. eapply zidx_bound. exact Hk.
    + replace (phUVs m) with (@nil (Z * vec2 T)); [constructor|]. unfold to_mmd in E.
      destruct (all_mats _ _ _ _ _ _ _ _ _) as [[[[mats fs] vs] ms]|] eqn:E1; [|discriminate]. injection E as <-. cbn [pMorphs] in Hm.
      symmetry. clear -E1 Hm.
      assert (U : forall objs sets' bones' names mi vs ms mats fs vs' ms', all_mats scale centi objs sets' bones' mi names vs ms = Some (mats, fs, vs', ms') ->
                Forall (fun m => phUVs (T := T) m = []) ms -> Forall (fun m => phUVs m = []) ms').
      { clear. assert (A : forall ms n e, Forall (fun m => phUVs (T := T) m = []) ms -> Forall (fun m => phUVs m = []) (add_offset ms n e)).
        { intros ms n e H. unfold add_offset. destruct (last_index _ ms) as [i|] eqn:El; [|exact H].
          apply last_index_Some in El as (a & m & b & -> & <- & _ & _). rewrite nth_error_app2, Nat.sub_diag by lia. cbn [nth_error].
          rewrite list_set_mid. apply Forall_app in H as (H1 & H2). inversion H2; subst. apply Forall_app. split; [exact H1|]. constructor; assumption. }
        assert (B : forall objs ts v id pos ms, Forall (fun m => phUVs (T := T) m = []) ms -> Forall (fun m => phUVs m = []) (target_offsets scale objs ts v id pos ms)).
        { intros objs ts v id pos. induction ts as [|t ts IH]; intros ms H; [exact H|]. cbn [target_offsets]. apply IH.
          destruct (last_index _ objs); [|exact H]. destruct (option_map _ _); [|exact H]. destruct (zidx _ v); [apply A|]; exact H. }
        assert (C : forall objs ts o ns f verts i st ids st', conv_corners scale objs ts o ns f i verts st = Some (ids, st') ->
                    Forall (fun m => phUVs (T := T) m = []) (msMorphs st) -> Forall (fun m => phUVs m = []) (msMorphs st')).
        { intros objs ts o ns f. induction verts as [|v verts IH]; intros i st ids st' E H; cbn [conv_corners] in E; [injection E as _ <-; exact H|].
          destruct (conv_corner _ _ _ _ _ _ _ _ _) as [[id st1]|] eqn:E1; [|discriminate].
          destruct (conv_corners _ _ _ _ _ _ _ _ _) as [[ids2 st2]|] eqn:E2; [|discriminate]. injection E as _ <-. apply (IH _ _ _ _ E2).
          unfold conv_corner in E1. destruct (find_key _ _); [injection E1 as _ <-; exact H|].
          destruct (zidx (oVerts o) v); [|discriminate]. destruct (zidx ns v); [|discriminate]. injection E1 as _ <-. cbn [msMorphs]. apply B. exact H. }
        assert (D : forall objs ts o ns mi fs st out st', obj_faces scale objs ts o ns mi fs st = Some (out, st') ->
                    Forall (fun m => phUVs (T := T) m = []) (msMorphs st) -> Forall (fun m => phUVs m = []) (msMorphs st')).
        { intros objs ts o ns mi. induction fs as [|f fs IH]; intros st out st' E H; cbn [obj_faces] in E; [injection E as _ <-; exact H|].
          destruct (_ || _); [eapply IH; eassumption|]. destruct (conv_corners _ _ _ _ _ _ _ _ _) as [[ids st1]|] eqn:E1; [|discriminate].
          destruct (obj_faces _ _ _ _ _ _ _ _) as [[out2 st2]|] eqn:E2; [|discriminate]. injection E as _ <-. apply (IH _ _ _ E2). apply (C _ _ _ _ _ _ _ _ _ _ E1). exact H. }
        assert (F : forall objs sets' bones' mi os vs ms fs vs' ms', mat_objects scale centi objs sets' bones' mi os vs ms = Some (fs, vs', ms') ->
                    Forall (fun m => phUVs (T := T) m = []) ms -> Forall (fun m => phUVs m = []) ms').
        { intros objs sets' bones' mi. induction os as [|o os IH]; intros vs ms fs vs' ms' E H; cbn [mat_objects] in E; [injection E as _ _ <-; exact H|].
          destruct (_ || _); [eapply IH; eassumption|]. destruct (smooth_normals o); [|discriminate].
          destruct (obj_faces _ _ _ _ _ _ _ _) as [[f1 st]|] eqn:E1; [|discriminate].
          destruct (mat_objects _ _ _ _ _ _ _ _ _) as [[[f2 vs2] ms2]|] eqn:E2; [|discriminate]. injection E as _ _ <-. apply (IH _ _ _ _ _ E2).
          apply (D _ _ _ _ _ _ _ _ _ E1). exact H. }
        intros objs sets' bones'. induction names as [|n names IH]; intros mi vs ms mats fs vs' ms' E H; cbn [all_mats] in E; [injection E as _ _ _ <-; exact H|].
        destruct (mat_objects _ _ _ _ _ _ _ _ _) as [[[f1 vs1] ms1]|] eqn:E1; [|discriminate].
        destruct (all_mats _ _ _ _ _ _ _ _ _) as [[[[mats2 f2] vs2] ms2]|] eqn:E2; [|discriminate]. injection E as _ _ _ <-.
        apply (IH _ _ _ _ _ _ _ E2). apply (F _ _ _ _ _ _ _ _ _ _ E1). exact H. }
      specialize (U _ _ _ _ _ _ _ _ _ _ _ E1). assert (Forall (fun m => phUVs (T := T) m = []) (new_morphs sets)) as U0.
      { apply Forall_forall. intros x Hx. unfold new_morphs in Hx. apply in_flat_map in Hx as (s & _ & Hx). apply in_map_iff in Hx as (y & <- & _). reflexivity. }
      specialize (U U0). rewrite Forall_forall in U. apply U. exact Hm.
  - apply Forall_forall. intros x Hx. apply In_nth_error in Hx as (i & Hi).
    assert (Hz : zidx (pVerts p) (Z.of_nat i) = Some x) by (apply zidx_Some; split; [lia|rewrite Nat2Z.id; exact Hi]).
    destruct (V _ _ Hz) as (ws & -> & -> & _ & B). rewrite !map_length, NB. split; [reflexivity|exact B].
  - split.
    + apply Forall_forall. intros m Hm. assert (H : In (pmCount m) (map pmCount (pMats p))) by (apply in_map; exact Hm).
      rewrite S2 in H. apply in_map_iff in H as (s & <- & _). lia.
    + rewrite S1. clear -S2. revert sl S2. induction (pMats p) as [|m ms IH]; intros [|s sl] S2; try discriminate; [reflexivity|].
      cbn [map] in S2. injection S2 as H1 H2. change (m :: ms) with ([m] ++ ms). rewrite total_app. cbn [concat]. rewrite app_length, (IH _ H2).
      f_equal. cbn [total]. assert (Hm : pmCount m = 3 * Z.of_nat (length s)) by exact H1. rewrite Hm, (Z.mul_comm 3), Z.div_mul by lia. lia.
Qed.

(** *** Weights and morphs at a corner *)

Lemma split_unique {A} (sl sl' : list (list A)) : concat sl = concat sl' -> map (@length A) sl = map (@length A) sl' -> sl = sl'.
Proof.
  revert sl'. induction sl as [|s sl IH]; intros [|s' sl'] E L; try discriminate; [reflexivity|]. cbn [map] in L. injection L as L1 L2.
  cbn [concat] in E. assert (H : s = s' /\ concat sl = concat sl').
  { clear -E L1. revert s' E L1. induction s as [|x s IH]; intros [|x' s'] E L1; try discriminate; [auto|]. cbn in E, L1.
    injection E as -> E. injection L1 as L1. destruct (IH _ E L1) as (-> & H). auto. }
  destruct H as (-> & H). f_equal. apply IH; assumption.
Qed.
Lemma forall2_nth2 {A B} (P : A -> B -> Prop) l m : Forall2 P l m -> forall i a b, nth_error l i = Some a -> nth_error m i = Some b -> P a b.
Proof. intros F i a b Ha Hb. destruct (forall2_nth _ _ _ F _ _ Ha) as (b' & H1 & H2). congruence. Qed.

Lemma exported_good (d : document T) bones sets p c id : to_mmd scale centi d bones sets = Some p -> exported_as d sets p c id ->
  good scale centi (fix_ids 0 (dObjects d)) sets bones (pVerts p) (pMorphs p) c id.
Proof.
  intros E (sl & k & s & tri & ids & i & X1 & X2 & X3 & j & X4 & X5 & X6 & X7).
  destruct (to_mmd_spec d bones sets p E) as (_ & _ & _ & _ & Nm & sl' & S1 & S2 & S3).
  assert (sl = sl') as <-.
  { apply split_unique; [congruence|]. rewrite X2 in S2. clear -S2. revert sl' S2. induction sl as [|a sl IH]; intros [|a' sl'] H; try discriminate; [reflexivity|].
    cbn [map] in *. injection H as H1 H2. assert (3 * Z.of_nat (length a) = 3 * Z.of_nat (length a')) by exact H1. f_equal; [lia|apply IH; exact H2]. }
  assert (Hk : nth_error (seq 0 (length (dMaterials d))) k = Some k).
  { assert (k < length (dMaterials d))%nat.
    { rewrite <- (seq_length (length (dMaterials d)) 0), (forall2_len _ _ _ S3). apply nth_error_Some. congruence. }
    rewrite (nth_error_nth' _ 0%nat) by (rewrite seq_length; lia). rewrite seq_nth by lia. reflexivity. }
  pose proof (forall2_nth2 _ _ _ S3 _ _ _ Hk X3) as F. cbn beta in F. pose proof (forall2_nth2 _ _ _ F _ _ _ X5 X4) as F2.
  apply (forall2_nth2 _ _ _ F2 _ _ _ X7 X6).
Qed.

Theorem to_mmd_weights (d : document T) bones sets p o v uv id : to_mmd scale centi d bones sets = Some p ->
  exported_as d sets p (o, v, uv) id -> has_weights p id (firstn 4 (weights_of centi o bones v)).
Proof.
  intros E X. destruct (exported_good _ _ _ _ _ _ E X) as (x & q & ns & A1 & A2 & A3 & A4 & A5 & A6 & A7 & A8 & A9). exists x. auto.
Qed.
Theorem to_mmd_normal (d : document T) bones sets p o v uv id : to_mmd scale centi d bones sets = Some p ->
  exported_as d sets p (o, v, uv) id -> exists x ns, zidx (pVerts p) id = Some x /\ smooth_normals o = Some ns /\ zidx ns v = Some (pvNormal x).
Proof.
  intros E X. destruct (exported_good _ _ _ _ _ _ E X) as (x & q & ns & A1 & A2 & A3 & A4 & A5 & _). exists x, ns. auto.
Qed.
(** Offsets are there, and right but for z. *)
Theorem to_mmd_offset (d : document T) bones sets p o v uv id ts t tob b q : to_mmd scale centi d bones sets = Some p ->
  exported_as d sets p (o, v, uv) id -> targets_of sets (oName o) ts -> In t ts -> named (fix_ids 0 (dObjects d)) t tob ->
  zidx (oVerts o) v = Some b -> zidx (oVerts tob) v = Some q ->
  has_offset p t id (mkV3 (nsub (vx (scaled scale q)) (vx (scaled scale b))) (nsub (vy (scaled scale q)) (vy (scaled scale b))) nzero).
Proof.
  intros E X Ht Hi Hn Hb Hq. pose proof (exported_good _ _ _ _ _ _ E X) as (x & q' & ns & A1 & A2 & A3 & A4 & A5 & A6 & A7 & A8 & A9).
  rewrite <- (targets_of_base _ _ _ Ht) in Hi. assert (q' = b) as -> by congruence.
  destruct (to_mmd_spec d bones sets p E) as (_ & _ & M & _). apply (A9 t q); [exact Hi|exists tob; auto|]. rewrite M. eapply base_targets_in. exact Hi.
Qed.
Theorem to_mmd_offset_sound (d : document T) bones sets p t id off : to_mmd scale centi d bones sets = Some p -> has_offset p t id off ->
  exists o ts v tob b q x, In o (fix_ids 0 (dObjects d)) /\ exported sets o = true /\ targets_of sets (oName o) ts /\ In t ts /\
    named (fix_ids 0 (dObjects d)) t tob /\ zidx (oVerts o) v = Some b /\ zidx (oVerts tob) v = Some q /\
    zidx (pVerts p) id = Some x /\ pvPos x = scaled scale b /\
    off = mkV3 (nsub (vx (scaled scale q)) (vx (scaled scale b))) (nsub (vy (scaled scale q)) (vy (scaled scale b))) nzero.
Proof.
  intros E H. destruct (to_mmd_spec d bones sets p E) as (_ & S0 & _).
  destruct (S0 t (id, off) H) as [(m' & [] & _)|(o & v & b & q & x & k & B1 & B2 & B3 & B4 & (tob & B5 & B6) & B7 & B8 & Eq)].
  injection Eq as <- ->. destruct (base_targets_of sets (oName o)) as [(Z0 & _)|Ht]; [rewrite Z0 in B3; destruct B3|].
  exists o, (base_targets sets (oName o)), v, tob, b, q, x. repeat split; try assumption; reflexivity.
Qed.

(** *** Saved and loaded *)

Theorem reload_proper fsub1 bits value (p : pmodel T) : proper p ->
  Forall (fun x => let n := length (pvWeights x) in n <> 0%nat /\ n <> 3%nat) (pVerts p) -> proper (reload fsub1 bits value p).
Proof.
  intros [P1 P2 P3 P4] H. constructor; unfold reload; cbn [pVerts pFaces pMats pMorphs pNBones].
  - rewrite map_length. exact P1.
  - rewrite map_length. exact P2.
  - apply Forall_forall. intros y Hy. apply in_map_iff in Hy as (x & <- & Hx). rewrite Forall_forall in P3, H.
    destruct (P3 x Hx) as (A & B). specialize (H x Hx). cbn zeta in H. destruct H as (H1 & H2).
    destruct (pvWeights x) as [|w0 [|w1 [|w2 [|w3 ws]]]] eqn:Ew; cbn [length map skin_after_save] in *; try (exfalso; tauto); cbn [pvBones pvWeights map length];
      (split; [rewrite ?map_length in *; exact A|exact B]).
  - exact P4.
Qed.
End Top.
