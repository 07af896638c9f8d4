(** From PMX over MQO to PMX, with vertex morphs. *)
From Coq Require Import String List ZArith Bool Lia Permutation.
From Verif.Model Require Import Num Vec Matrix Mqo MqoDoc Mmd2Mqo Mqo2Mmd.
From Verif Require Import Spec.MmdConvSpec Spec.Mqo2MmdSpec Spec.GltfSpec Spec.DrawnSpec Spec.FbxPmxSpec Spec.PmxPmxSpec Spec.PmxMorphSpec.
From Verif Require Import Proofs.MqoDocProofs Proofs.Mmd2MqoGroups Proofs.Mmd2MqoProofs Proofs.Mqo2MmdTop Proofs.DrawnLemmas Proofs.DrawnConv Proofs.DrawnProofs Proofs.DrawnFbx Proofs.GltfSceneProofs Proofs.FbxPmx Proofs.PmxPmx Proofs.PmxSkin.
Import ListNotations.
Local Open Scope Z_scope.
Local Open Scope list_scope.

(** *** Names *)

Section Names.
Context {T : Type} {N : Num T}.
Variables (hundred facet : T) (shuffle : vmap -> vmap).
Notation target := (fun o : object T => negb (mesh o)).
Notation name_of p := (fun mi => option_map (fun m : pmorph T => phName m) (nth_error (pMorphs p) mi)).

Lemma all_morphs_names p m vs fs l : forall ts, all_morphs facet p m vs fs l = Some ts ->
  filter target ts = ts /\ map (fun o => Some (oName o)) ts = map (name_of p) l.
Proof.
  induction l as [|mi l IH]; intros ts E; cbn [all_morphs] in E; [injection E as <-; split; reflexivity|].
  destruct (nth_error (pMorphs p) mi) as [mo|] eqn:Em; [|discriminate]. destruct (morph_object facet m vs fs mo) as [o|] eqn:Eo; [|discriminate].
  destruct (all_morphs facet p m vs fs l) as [os|]; [|discriminate]. injection E as <-. destruct (IH os eq_refl) as (A & B).
  unfold morph_object in Eo. destruct (move_vertices m vs (phVerts mo)) as [vs'|]; [|discriminate]. injection Eo as <-.
  split; [cbn [filter mesh target_object oDepth]; unfold mesh at 1; cbn [oDepth target_object Z.eqb negb]; rewrite A; reflexivity|].
  cbn [map]. rewrite B, Em. reflexivity.
Qed.
Notation based := (fun o : object T => mesh o && prefix "MorphBase" (oName o)).
Lemma all_morphs_based p m vs fs l ts : all_morphs facet p m vs fs l = Some ts -> filter based ts = [].
Proof.
  intros E. destruct (all_morphs_names p m vs fs l ts E) as (D & _). clear E. induction ts as [|o ts IH]; [reflexivity|]. cbn [filter] in *. destruct (mesh o); cbn [negb andb] in *; [|injection D as D; exact (IH D)].
  exfalso. assert (L : (length (filter target ts) <= length ts)%nat) by (clear; induction ts as [|x ts IH]; [constructor|]; cbn [filter]; destruct (negb (mesh x)); cbn [length]; lia). rewrite D in L. cbn [length] in L. lia.
Qed.
Lemma prefix_app a b : prefix a (String.append a b) = true.
Proof. induction a as [|c a IH]; [destruct b; reflexivity|]. cbn. destruct (Ascii.ascii_dec c c); [exact IH|congruence]. Qed.
Lemma group_names p f2m ms : forall fss mg os bw sets os' bw' sets', group_loop hundred facet shuffle p f2m mg ms fss os bw sets = Some (os', bw', sets') ->
  exists k new, os' = os ++ new /\ map (fun o => Some (oName o)) (filter target new) = map (name_of p) (concat (firstn k ms)) /\
    map tlBase sets' = map tlBase sets ++ map (fun g => String.append "MorphBase" (dec g)) (seq mg k) /\
    map (fun o => oName o) (filter based new) = map (fun g => String.append "MorphBase" (dec g)) (seq mg k) /\
    map Some (flat_map tlTargets sets') = map Some (flat_map tlTargets sets) ++ map (name_of p) (concat (firstn k ms)).
Proof.
  induction ms as [|l ms IH]; intros [|faces fss] mg os bw sets os' bw' sets' E; cbn [group_loop] in E; try (injection E as <- <- <-; exists 0%nat, []; cbn [map filter seq firstn concat]; rewrite !app_nil_r; repeat split; reflexivity).
  destruct (conv_faces p f2m faces ([], [])) as [[fs [vs m]]|]; [|discriminate].
  destruct (Mmd2Mqo.set_weights _ _ _ _ _ _) as [bw1|]; [|discriminate]. destruct (all_morphs facet p m vs fs l) as [ts|] eqn:E3; [|discriminate].
  destruct (IH _ _ _ _ _ _ _ _ E) as (k & new & A & B & C & D & F). destruct (all_morphs_names p m vs fs l ts E3) as (D1 & D2). pose proof (all_morphs_based p m vs fs l ts E3) as D3.
  exists (S k), ((new_object facet (String.append "MorphBase" (dec mg)) vs fs :: ts) ++ new). split; [rewrite A, <- app_assoc; reflexivity|]. split; [|split; [|split]].
  - cbn [firstn concat app filter]. unfold mesh at 1. cbn [oDepth new_object Z.eqb negb]. rewrite filter_app, !map_app, D1, D2, B. reflexivity.
  - rewrite C, map_app, <- app_assoc. reflexivity.
  - cbn [app filter]. unfold mesh at 1. cbn [oDepth oName new_object Z.eqb andb]. rewrite prefix_app, filter_app, D3. cbn [app map seq oName new_object]. rewrite D. reflexivity.
  - rewrite F, flat_map_app, map_app, <- app_assoc. f_equal. cbn [flat_map tlTargets firstn concat]. rewrite app_nil_r, map_map, D2, map_app. reflexivity.
Qed.
Lemma mat_meshes p base rest : forall idx vpos os bw f2m os' bw' f2m', filter target os = [] /\ filter based os = [] ->
  mat_loop hundred facet shuffle p base idx vpos rest os bw f2m = Some (os', bw', f2m') -> filter target os' = [] /\ filter based os' = [].
Proof.
  induction rest as [|mat rest IH]; intros idx vpos os bw f2m os' bw' f2m' H E; cbn [mat_loop] in E; [injection E as <- _ _; exact H|].
  destruct (set_range _ _ _ _) as [f2m1|]; [|discriminate]. destruct (conv_faces _ _ _ _) as [[fs [vs m]]|]; [|discriminate].
  destruct (_ && _).
  - eapply IH; eassumption.
  - destruct (Mmd2Mqo.set_weights _ _ _ _ _ _) as [bw1|]; [|discriminate]. eapply IH; [|exact E]. destruct H as (H1 & H2). rewrite !filter_app, H1, H2. split; reflexivity.
Qed.
Lemma fix_targets os : forall i, map (fun o : object T => oName o) (filter target (fix_ids i os)) = map (fun o => oName o) (filter target os).
Proof.
  induction os as [|o os IH]; intros i; [reflexivity|]. cbn [fix_ids filter]. destruct (oUID o =? 0); (unfold mesh at 1 3; cbn [oDepth set_uid]; destruct (negb _); cbn [map]; rewrite IH; reflexivity).
Qed.
Lemma fix_based os : forall i, map (fun o : object T => oName o) (filter based (fix_ids i os)) = map (fun o => oName o) (filter based os).
Proof.
  induction os as [|o os IH]; intros i; [reflexivity|]. cbn [fix_ids filter]. destruct (oUID o =? 0); (unfold mesh at 1 3; cbn [oDepth oName set_uid]; destruct (_ && _); cbn [map]; rewrite IH; reflexivity).
Qed.
Lemma nodup_groups (l : list (list nat)) : (forall g, NoDup (nth g l [])) -> (forall g g' x, In x (nth g l []) -> In x (nth g' l []) -> g = g') -> NoDup (concat l).
Proof.
  induction l as [|a l IH]; intros H1 H2; [constructor|]. cbn [concat].
  assert (N1 : NoDup a) by exact (H1 0%nat).
  assert (N2 : NoDup (concat l)). { apply IH; [intros g; exact (H1 (S g))|]. intros g g' x A B. specialize (H2 (S g) (S g') x A B). lia. }
  assert (D : forall x, In x a -> ~ In x (concat l)).
  { intros x A B. apply in_concat in B as (b & B1 & B2). apply (In_nth _ _ []) in B1 as (g & _ & B1). specialize (H2 0%nat (S g) x A). cbn [nth] in H2. rewrite B1 in H2. specialize (H2 B2). lia. }
  clear - N1 N2 D. induction a as [|x a IH]; [exact N2|]. inversion N1; subst. cbn [app]. constructor; [|apply IH; [assumption|intros y Y; apply D; right; exact Y]].
  rewrite in_app_iff. intros [I|I]; [contradiction|]. exact (D x (or_introl eq_refl) I).
Qed.
Lemma nodup_somes {A B} (f : A -> B) (l : list A) : NoDup (map (fun x => Some (f x)) l) -> NoDup (map f l).
Proof. rewrite <- map_map with (f := f) (g := Some). apply NoDup_map_inv. Qed.
Lemma nodup_names p (l : list nat) : NoDup (map (fun m => phName m) (pMorphs p)) -> (forall mi, In mi l -> nth_error (pMorphs p) mi <> None) -> NoDup l -> NoDup (map (name_of p) l).
Proof.
  intros U H D. induction D as [|mi l NI D IH]; [constructor|]. cbn [map]. constructor; [|apply IH; intros x X; apply H; right; exact X].
  intros I. apply in_map_iff in I as (mj & E & I). rewrite <- !nth_error_map in E. rewrite NoDup_nth_error in U. assert (mi = mj); [|congruence]. apply U; [|congruence].
  apply nth_error_Some. rewrite nth_error_map. specialize (H mi (or_introl eq_refl)). destruct (nth_error (pMorphs p) mi); [discriminate|congruence].
Qed.
Lemma nodup_left {A} (l l' : list A) : NoDup (l ++ l') -> NoDup l.
Proof. induction l as [|a l IH]; intros D; [constructor|]. inversion D as [|? ? H D']; subst. constructor; [intros I; apply H, in_or_app; left; exact I|exact (IH D')]. Qed.
Lemma nodup_right {A} (l l' : list A) : NoDup (l ++ l') -> NoDup l'.
Proof. induction l as [|a l IH]; intros D; [exact D|]. inversion D; subst. apply IH. assumption. Qed.

Theorem convert_names p os bw sets : convert hundred facet shuffle p = Some (os, bw, sets) -> NoDup (map (fun m => phName m) (pMorphs p)) ->
  NoDup (map (fun o => oName o) (filter target os)) /\ NoDup (map tlBase sets) /\ NoDup (map (fun o => oName o) (filter based os)) /\ NoDup (flat_map tlTargets sets) /\
  (forall s, In s sets -> prefix "MorphBase" (tlBase s) = true) /\
  (forall s t, In s sets -> In t (tlTargets s) -> exists mi m, nth_error (pMorphs p) mi = Some m /\ phName m = t /\ used p m).
Proof.
  intros E U. unfold convert in E. destruct (gen_morph_group p) as [[mg2m mg2fs]|] eqn:E0; [|discriminate].
  destruct (mat_loop _ _ _ _ _ _ _ _ _ _ _) as [[[os1 bw1] f2m]|] eqn:E1; [|discriminate].
  destruct (group_loop _ _ _ _ _ _ _ _ _ _ _) as [[[os2 bw2] sets2]|] eqn:E2; [|discriminate]. injection E as <- <- <-.
  destruct (gen_spec p mg2m mg2fs E0) as (lab & G). apply mat_meshes in E1; [|split; reflexivity]. destruct E1 as (E1 & E1').
  destruct (group_names _ _ _ _ _ _ _ _ _ _ _ E2) as (k & new & -> & B & C & D & F).
  assert (NC : NoDup (concat mg2m)) by (apply nodup_groups; [exact (go_nodup _ _ _ _ G)|exact (go_once _ _ _ _ G)]).
  assert (SK : exists a, concat mg2m = a ++ concat (firstn k (skipn 1 mg2m)) ++ concat (skipn k (skipn 1 mg2m))).
  { exists (concat (firstn 1 mg2m)). rewrite <- concat_app, firstn_skipn, <- concat_app, firstn_skipn. reflexivity. }
  destruct SK as (a & SK).
  assert (GM : forall mi, In mi (concat (firstn k (skipn 1 mg2m))) -> exists m, nth_error (pMorphs p) mi = Some m /\ used p m).
  { intros mi I. assert (In mi (concat mg2m)) by (rewrite SK; apply in_or_app; right; apply in_or_app; left; exact I).
    apply in_concat in H as (l & H1 & H2). apply (In_nth _ _ []) in H1 as (g & _ & <-). destruct (go_morph _ _ _ _ G _ _ H2) as (m & M & Um & _). eauto. }
  assert (ND : NoDup (map (name_of p) (concat (firstn k (skipn 1 mg2m))))).
  { apply nodup_names; [exact U| |].
    + intros mi I. destruct (GM mi I) as (m & M & _). congruence.
    + rewrite SK in NC. apply nodup_right in NC. apply nodup_left in NC. exact NC. }
  assert (NB : forall k0, NoDup (map (fun g => String.append "MorphBase" (dec g)) (seq 1 k0))).
  { intros k0. apply FinFun.Injective_map_NoDup; [|apply seq_NoDup]. intros x y Exy. apply append_inj_l in Exy. apply dec_inj. exact Exy. }
  split; [rewrite fix_targets, filter_app, E1; cbn [app]; apply nodup_somes; rewrite B; exact ND|].
  cbn [map app flat_map] in C, F. split; [rewrite C; apply NB|]. split; [rewrite fix_based, filter_app, E1'; cbn [app]; rewrite D; apply NB|].
  split; [apply (NoDup_map_inv Some); rewrite F; exact ND|]. split.
  - intros s I. apply (in_map tlBase) in I. rewrite C in I. apply in_map_iff in I as (g & <- & _). apply prefix_app.
  - intros s t I It. assert (I2 : In (Some t) (map Some (flat_map tlTargets sets2))) by (apply in_map, in_flat_map; exists s; auto).
    rewrite F in I2. apply in_map_iff in I2 as (mi & Emi & I2). destruct (GM mi I2) as (m & M & Um). rewrite M in Emi. exists mi, m. cbn in Emi. split; [exact M|]. split; [congruence|exact Um].
Qed.
End Names.

(** *** Offsets *)

Section Proofs.
Context {T : Type} {N : Num T}.
Variables (hundred facet : T) (shuffle : vmap -> vmap).
Hypothesis shuffle_perm : forall m, Permutation (shuffle m) m.
Variables (p : pmodel T) (os : list (object T)) (bw : bone_weights (T := T)) (sets : list target_list).
Hypothesis EC : convert hundred facet shuffle p = Some (os, bw, sets).
Hypothesis CV : covers p.
Hypothesis three : Forall (fun f => length f = 3%nat) (pFaces p).
Hypothesis names : forall m, In m (pMorphs p) -> ~ mesh_name (phName m).
Hypothesis unique : NoDup (map (fun m => phName m) (pMorphs p)).
Variables (move turn : vec3 T -> vec3 T) (dd : document T).
Hypothesis OB : Forall2 (moved_object move turn) os (dObjects dd).
Variables (scale centi : T) (bones : list (bone T)) (p' : pmodel T) (extra : list string).
Hypothesis MN : map (@mtName T) (dMaterials dd) = map pmName (pMats p) ++ extra.
Hypothesis EP : to_mmd scale centi dd bones sets = Some p'.

Lemma ids_stay : fix_ids 0 (dObjects dd) = dObjects dd.
Proof.
  apply fix_ids_id. destruct (convert_held hundred facet shuffle shuffle_perm p os bw sets EC CV) as (_ & is & HH & _). pose proof OB as OB0. clear - HH OB0. revert is HH. induction OB0 as [|o o' l l' (_ & U & _) OB' IH]; intros is HH; inversion HH as [|? i ? is' (_ & H & _) HH']; subst; constructor; [rewrite U; exact H | exact (IH _ HH')].
Qed.
Lemma mesh_exported o o' : In o os -> moved_object move turn o o' -> mesh o = true -> exported sets o' = true.
Proof.
  intros Io (_ & _ & Na & Vs & _) Me. destruct (convert_made hundred facet shuffle _ _ _ _ EC) as (MD & SO). rewrite Forall_forall in MD. destruct (MD o Io) as (_ & _ & [(_ & Vi & _ & Mn)|(D1 & _)]).
  - unfold exported. rewrite Vs, Vi. cbn [andb]. apply negb_true_iff. destruct (existsb _ sets) eqn:Ee; [|reflexivity]. exfalso.
    apply existsb_exists in Ee as (s & Hs & Ee). apply existsb_exists in Ee as (t & Ht & Et). apply String.eqb_eq in Et. subst t.
    unfold sets_ok in SO. rewrite Forall_forall in SO. specialize (SO s Hs). rewrite Forall_forall in SO. specialize (SO _ Ht).
    apply in_map_iff in SO as (m & Hm & Hin). apply (names m Hin). rewrite Hm, Na. exact Mn.
  - unfold mesh in Me. rewrite D1 in Me. discriminate Me.
Qed.
Lemma named_target pre t post t' m : os = pre ++ t :: post -> mesh t = false -> In m (pMorphs p) -> oName t = phName m -> moved_object move turn t t' ->
  (exists pre' post', dObjects dd = pre' ++ t' :: post' /\ Forall2 (moved_object move turn) post post') -> named (dObjects dd) (phName m) t'.
Proof.
  intros Eo Mt Im Nt MO (pre' & post' & Ed & F). exists pre', post'. split; [exact Ed|]. pose proof MO as (_ & _ & Na & _). split; [congruence|].
  apply Forall_forall. intros x' Ix' Ex. destruct (GltfSceneProofs.forall2_in_r _ _ _ F x' Ix') as (x & Ix & (_ & _ & Nx & _)).
  destruct (convert_made hundred facet shuffle _ _ _ _ EC) as (MD & _). rewrite Forall_forall in MD.
  assert (Ixo : In x os) by (rewrite Eo; apply in_or_app; right; right; exact Ix).
  destruct (mesh x) eqn:Mx.
  - destruct (MD x Ixo) as (_ & _ & [(_ & _ & _ & Mn)|(D1 & _)]); [|unfold mesh in Mx; rewrite D1 in Mx; discriminate]. apply (names m Im). rewrite <- Ex, Nx. exact Mn.
  - destruct (convert_names hundred facet shuffle p os bw sets EC unique) as (ND & _). rewrite Eo, filter_app in ND. cbn [filter] in ND. rewrite Mt in ND. cbn [negb] in ND. rewrite map_app in ND. apply nodup_right in ND. cbn [map] in ND. inversion ND as [|? ? H _]; subst. apply H. rewrite in_map_iff. exists x. split; [congruence|]. apply filter_In. rewrite Mx. auto.
Qed.
Lemma base_targets_of base l : In (mkTL base l) sets -> targets_of sets base l.
Proof.
  intros I. apply in_split in I as (a & b & E). exists a, (mkTL base l), b. split; [exact E|]. split; [reflexivity|]. split; [|reflexivity].
  destruct (convert_names hundred facet shuffle p os bw sets EC unique) as (_ & ND & _). rewrite E, map_app in ND. apply nodup_right in ND. cbn [map tlBase] in ND. inversion ND as [|? ? H _]; subst.
  apply Forall_forall. intros x I Ex. apply H. rewrite <- Ex. now apply in_map.
Qed.
Lemma zidx_map_some {A B} (f : A -> B) l k : zidx (map f l) k = option_map f (zidx l k).
Proof. unfold zidx. destruct (k <? 0); [reflexivity|]. apply nth_error_map. Qed.
Lemma zidx_combine {A B} (l : list A) (l' : list B) k a b : zidx l k = Some a -> zidx l' k = Some b -> zidx (combine l l') k = Some (a, b).
Proof.
  unfold zidx. destruct (k <? 0); [discriminate|]. generalize (Z.to_nat k) as n. revert l'. induction l as [|x l IH]; intros l' n A1 B1; [destruct n; discriminate|]. destruct l' as [|y l']; [destruct n; discriminate|]. destruct n as [|n]; [cbn in *; congruence|]. apply IH; assumption.
Qed.

Lemma combine_at {A B} (l : list A) : forall (l' : list B) k a b, nth_error l k = Some a -> nth_error l' k = Some b -> nth_error (combine l l') k = Some (a, b).
Proof. induction l as [|x l IH]; intros [|y l'] [|k] a b A1 B1; try discriminate; cbn in *; [congruence|]. apply IH; assumption. Qed.
Lemma triangles_three {A} (l : list A) : length l = 3%nat -> triangles l = [l].
Proof. destruct l as [|a [|b [|c [|]]]]; try discriminate. reflexivity. Qed.

Theorem pmx_pmx_offsets mi m fi : nth_error (pMorphs p) mi = Some m -> on_faces p m -> (fi < length (pFaces p))%nat ->
  (exists v, In v (nth fi (pFaces p) []) /\ In v (map fst (phVerts m) ++ map fst (phUVs m))) ->
  exists t, In t (combine (face_owners (pMats p')) (pFaces p')) /\ owner (pMats p) 0 fi = Some (Z.of_nat (fst t)) /\ Forall2 (same_move scale move p p' m) (nth fi (pFaces p) []) (snd t).
Proof.
  intros Em OF Lf (v0 & V1 & V2).
  destruct (convert_morph hundred facet shuffle shuffle_perm p os bw sets mi m EC CV Em) as (pre & base & ts1 & t & ts2 & post & src & fsrc & Eo & Mb & Mts & Sh & Mo & Hf & Hs).
  { unfold morph_targets_of. intros Ez. rewrite Ez in V2. exact V2. }
  { exact OF. }
  specialize (Hf v0 fi V2 Lf V1). destruct Sh as (NDs & Vs & Fs).
  assert (Im : In m (pMorphs p)) by exact (nth_error_In _ _ Em).
  apply (In_nth_error) in Hf as (jf & Hjf). destruct (forall2_nth_r _ _ _ _ _ Fs Hjf) as (f & Hjo & SR & Own).
  (* the moved objects *)
  pose proof OB as OB1. rewrite Eo in OB1. apply Forall2_app_inv_l in OB1 as (pre' & r & F1 & F2 & Ed). inversion F2 as [|? base' ? r' MOb F3]; subst r.
  apply Forall2_app_inv_l in F3 as (ts1' & r2 & F4 & F5 & Er'). inversion F5 as [|? t' ? r3 MOt F6]; subst r2. subst r'.
  assert (NT : named (dObjects dd) (phName m) t').
  { apply (named_target (pre ++ base :: ts1) t (ts2 ++ post) t' m).
    - rewrite Eo, <- app_assoc. reflexivity.
    - apply Forall_app in Mts as (_ & Mts). inversion Mts; assumption.
    - exact Im.
    - exact (proj1 Mo).
    - exact MOt.
    - exists (pre' ++ base' :: ts1'), r3. split; [rewrite Ed, <- app_assoc; reflexivity|exact F6]. }
  assert (Ib : In base os) by (rewrite Eo; apply in_or_app; right; left; reflexivity).
  assert (Xb : exported sets base' = true) by exact (mesh_exported base base' Ib MOb Mb).
  assert (TB : targets_of sets (oName base') (map (@oName T) (ts1 ++ t :: ts2))).
  { pose proof MOb as (_ & _ & Na & _). rewrite Na. apply base_targets_of. exact Hs. }
  assert (IT : In (phName m) (map (@oName T) (ts1 ++ t :: ts2))).
  { rewrite <- (proj1 Mo). apply in_map, in_or_app. right. left. reflexivity. }
  (* the face *)
  set (f' := mkFace (fUID f) (fVerts f) (fMaterial f) (fUVs f) (map (option_map turn) (fNormals f))).
  assert (If' : In f' (oFaces base')).
  { pose proof MOb as (_ & _ & _ & _ & _ & _ & _ & Fa). rewrite Fa. apply (in_map (fun f => mkFace (fUID f) (fVerts f) (fMaterial f) (fUVs f) (map (option_map turn) (fNormals f)))). exact (nth_error_In _ _ Hjo). }
  destruct (source_three p three fi Lf) as (va & vb & vc & Ef).
  assert (Tri : In (Mqo2MmdSpec.corners base' f') (material_triangles sets (dObjects dd) (fMaterial f))).
  { unfold material_triangles. apply in_flat_map. exists base'. split; [apply filter_In; split; [rewrite Ed; apply in_or_app; right; left; reflexivity|exact Xb]|].
    apply in_flat_map. exists f'. split; [exact If'|]. cbn [f' fMaterial]. rewrite Z.eqb_refl, (triangles_three (Mqo2MmdSpec.corners base' f')); [left; reflexivity|].
    unfold Mqo2MmdSpec.corners. rewrite map_length, seq_length. cbn [f' fVerts]. apply (f_equal (@length _)) in SR. rewrite !map_length, Ef in SR. exact SR. }
  (* the faces of its material *)
  destruct (to_mmd_faces scale centi dd bones sets p' EP) as (NMS & slices & S1 & S2 & S3).
  destruct (owners_of slices (pMats p') 0 S2) as (_ & OW2). cbn zeta in OW2. fold (face_owners (pMats p')) in OW2. rewrite <- S1 in OW2.
  set (n := length (dMaterials dd)) in *.
  assert (OB' : 0 <= fMaterial f < Z.of_nat n).
  { symmetry in Own. apply owner_bound in Own. assert ((length (pMats p) <= n)%nat); [|lia]. unfold n. rewrite <- (map_length (@mtName T)), MN, app_length, map_length. lia. }
  set (k := Z.to_nat (fMaterial f)). assert (Ek : fMaterial f = Z.of_nat k) by (unfold k; lia).
  assert (Hk : nth_error (seq 0 n) k = Some k). { rewrite (nth_error_nth' _ 0%nat) by (rewrite seq_length; lia). rewrite seq_nth by lia. reflexivity. }
  destruct (forall2_nth_l _ _ _ _ _ S3 Hk) as (s & Hs' & Fm). rewrite Ek in Tri. apply In_nth_error in Tri as (j & Hj).
  destruct (forall2_nth_l _ _ _ _ _ Fm Hj) as (ids & Hids & Fc).
  exists (k, ids). split; [|split].
  - rewrite OW2. apply in_flat_map. exists (k, s). split; [|cbn [fst snd]; apply in_map; exact (nth_error_In _ _ Hids)].
    assert (Hsk : nth_error (combine (seq 0 (length slices)) slices) k = Some (k, s)).
    { assert (LS : length slices = n) by (apply f2_length in S3; rewrite seq_length in S3; congruence). rewrite LS. apply combine_at; assumption. }
    exact (nth_error_In _ _ Hsk).
  - cbn [fst]. rewrite <- Own, Ek. reflexivity.
  - cbn [snd].
    assert (G : forall i q id, nth_error (nth fi (pFaces p) []) i = Some q -> nth_error ids i = Some id -> same_move scale move p p' m q id).
    { intros i q id Q I.
      assert (SX : exists x, nth_error (fVerts f) i = Some x /\ zidx src x = Some q).
      { apply (f_equal (fun l => nth_error l i)) in SR. rewrite !nth_error_map, Q in SR. destruct (nth_error (fVerts f) i) as [xx|]; [|discriminate]. exists xx. split; [reflexivity|]. cbn [option_map] in SR. congruence. }
      destruct SX as (x1 & Hx & SX).
      assert (C : nth_error (Mqo2MmdSpec.corners base' f') i = Some (base', x1, nth i (fUVs f) (mkV2 nzero nzero))).
      { unfold Mqo2MmdSpec.corners, f'. cbn [fVerts fUVs]. rewrite nth_error_map. assert (Li : (i < length (fVerts f))%nat) by (apply nth_error_Some; congruence).
        rewrite (nth_error_nth' _ 0%nat) by (rewrite seq_length; exact Li). rewrite seq_nth by exact Li. cbn [option_map Nat.add]. rewrite (nth_error_nth _ _ 0 Hx). reflexivity. }
      destruct (forall2_nth_l _ _ _ _ _ Fc C) as (id' & I' & AC). assert (id' = id) by congruence. subst id'.
      destruct AC as (v' & b & Ev' & Eb & Ep & _).
      assert (VX : option_map Some (zidx (oVerts base) x1) = Some (option_map (fun w => flip_z (pvPos w)) (zidx (pVerts p) q))).
      { rewrite <- zidx_map_some, Vs, zidx_map_some, SX. reflexivity. }
      destruct (zidx (oVerts base) x1) as [pos|] eqn:EX; [|discriminate VX]. cbn [option_map] in VX. destruct (zidx (pVerts p) q) as [v|] eqn:EQ; [|discriminate VX]. cbn [option_map] in VX. assert (Epos : pos = flip_z (pvPos v)) by congruence.
      pose proof MOb as (Vb & _). rewrite Vb, zidx_map_some, EX in Eb. cbn [option_map] in Eb. assert (Eb' : b = move (flip_z (pvPos v))) by congruence.
      split.
      - exists v, v'. rewrite <- Eb'. auto.
      - intros Iq. exists v. split; [exact EQ|]. pose proof MOt as (Vt & _). destruct Mo as (_ & _ & _ & Mv & _).
        assert (Et : zidx (oVerts t') x1 = Some (move (moved m q (flip_z (pvPos v))))).
        { rewrite Vt, zidx_map_some, Mv, zidx_map_some, (zidx_combine src (oVerts base) x1 q pos SX EX). cbn [option_map fst snd]. rewrite Epos. reflexivity. }
        unfold flat_offset. eapply (to_mmd_offset scale centi dd bones sets p' base' x1).
        + exact EP.
        + exists slices, k, s, (Mqo2MmdSpec.corners base' f'), ids, i. rewrite ids_stay. repeat (split; [eassumption|]). exists j. repeat (split; [eassumption|]). exact C.
        + exact TB.
        + exact IT.
        + rewrite ids_stay. exact NT.
        + rewrite Vb, zidx_map_some, EX. cbn [option_map]. rewrite Epos. reflexivity.
        + exact Et. }
    assert (LI : length ids = 3%nat). { apply f2_length in Fc. rewrite <- Fc. unfold Mqo2MmdSpec.corners. rewrite map_length, seq_length. cbn [f' fVerts]. apply (f_equal (@length _)) in SR. rewrite !map_length, Ef in SR. exact SR. }
    rewrite Ef in *. destruct ids as [|i1 [|i2 [|i3 [|]]]]; try discriminate LI. apply Forall2_cons; [apply (G 0%nat); reflexivity|]. apply Forall2_cons; [apply (G 1%nat); reflexivity|]. apply Forall2_cons; [apply (G 2%nat); reflexivity|]. apply Forall2_nil.
Qed.
Lemma nodup_map_inj {A B} (f : A -> B) l a b : NoDup (map f l) -> In a l -> In b l -> f a = f b -> a = b.
Proof.
  induction l as [|x l IH]; intros D Ia Ib E; [destruct Ia|]. cbn [map] in D. inversion D as [|? ? H D']; subst. destruct Ia as [->|Ia], Ib as [->|Ib]; [reflexivity| | |exact (IH D' Ia Ib E)].
  - exfalso. apply H. rewrite E. now apply in_map.
  - exfalso. apply H. rewrite <- E. now apply in_map.
Qed.
Lemma nodup_flat {A B} (f : A -> list B) l a b x : NoDup (flat_map f l) -> In a l -> In b l -> In x (f a) -> In x (f b) -> a = b.
Proof.
  induction l as [|y l IH]; intros D Ia Ib Xa Xb; [destruct Ia|]. cbn [flat_map] in D.
  assert (DJ : forall z, In z (f y) -> ~ In z (flat_map f l)).
  { clear - D. induction (f y) as [|w r IH]; intros z I; [destruct I|]. cbn [app] in D. inversion D as [|? ? H D']; subst. destruct I as [->|I]; [intros J; apply H, in_or_app; right; exact J|exact (IH D' z I)]. }
  destruct Ia as [->|Ia], Ib as [->|Ib]; [reflexivity| | |exact (IH (nodup_right _ _ D) Ia Ib Xa Xb)].
  - exfalso. apply (DJ x Xa). apply in_flat_map. eauto.
  - exfalso. apply (DJ x Xb). apply in_flat_map. eauto.
Qed.

Theorem pmx_pmx_offsets_sound name id' off : (forall m, In m (pMorphs p) -> on_faces p m) -> has_offset p' name id' off ->
  exists m id v, In m (pMorphs p) /\ phName m = name /\ zidx (pVerts p) id = Some v /\ same_place scale move p p' id id' /\ off = flat_offset scale move m id v.
Proof.
  intros OF HO. destruct (to_mmd_offset_sound scale centi dd bones sets p' name id' off EP HO) as (o' & ts & x1 & tob' & b & q & y & Io' & Xo & TO & It & NT & Eb & Eq & Ey & Py & Eoff).
  rewrite ids_stay in Io', NT.
  destruct (convert_names hundred facet shuffle p os bw sets EC unique) as (N1 & N2 & N3 & N4 & N5 & N6).
  destruct TO as (sa & s & sb & Es & Bs & _ & ->). assert (Is : In s sets) by (rewrite Es; apply in_or_app; right; left; reflexivity).
  destruct (N6 s name Is It) as (mi & m & Em & Nm & Um). assert (Im : In m (pMorphs p)) by exact (nth_error_In _ _ Em).
  destruct (convert_morph hundred facet shuffle shuffle_perm p os bw sets mi m EC CV Em) as (pre & base & ts1 & t & ts2 & post & src & fsrc & Eo & Mb & Mts & Sh & Mo & _ & Hs).
  { destruct Um as (x & _ & Hx & _). intros Ez. rewrite Ez in Hx. destruct Hx. }
  { exact (OF m Im). }
  assert (Ib : In base os) by (rewrite Eo; apply in_or_app; right; left; reflexivity).
  assert (Itt : In t os) by (rewrite Eo; apply in_or_app; right; right; apply in_or_app; right; left; reflexivity).
  destruct (convert_made hundred facet shuffle _ _ _ _ EC) as (MD & _). rewrite Forall_forall in MD.
  (* the base *)
  assert (Esb : s = mkTL (oName base) (map (@oName T) (ts1 ++ t :: ts2))).
  { apply (nodup_flat tlTargets sets s _ name N4 Is Hs It). cbn [tlTargets]. rewrite <- Nm, <- (proj1 Mo). apply in_map, in_or_app. right. left. reflexivity. }
  destruct (GltfSceneProofs.forall2_in_r _ _ _ OB o' Io') as (o & Io & MOo). pose proof MOo as (Vo & _ & No & Vio & _).
  assert (oo : o = base).
  { apply (nodup_map_inj (fun o => oName o) (filter (fun o => mesh o && prefix "MorphBase" (oName o)) os)); [exact N3| | |].
    - apply filter_In. split; [exact Io|]. destruct (MD o Io) as (_ & _ & [(D0 & _)|(_ & V0)]).
      + unfold mesh. rewrite D0. cbn [Z.eqb andb]. rewrite <- No, <- Bs. exact (N5 s Is).
      + unfold exported in Xo. rewrite Vio, V0 in Xo. discriminate Xo.
    - apply filter_In. split; [exact Ib|]. rewrite Mb. exact (N5 _ Hs).
    - rewrite <- No, <- Bs, Esb. reflexivity. }
  subst o.
  (* the target *)
  destruct NT as (na & nb & End & Ntob & _). assert (Itob : In tob' (dObjects dd)) by (rewrite End; apply in_or_app; right; left; reflexivity).
  destruct (GltfSceneProofs.forall2_in_r _ _ _ OB tob' Itob) as (tt & Itb & MOt). pose proof MOt as (Vt & _ & Nt & _).
  assert (Et : tt = t).
  { apply (nodup_map_inj (fun o => oName o) (filter (fun o => negb (mesh o)) os)); [exact N1| | |].
    - apply filter_In. split; [exact Itb|]. destruct (mesh tt) eqn:Mt; [|reflexivity]. destruct (MD tt Itb) as (_ & _ & [(_ & _ & _ & Mn)|(D1 & _)]); [|unfold mesh in Mt; rewrite D1 in Mt; discriminate].
      exfalso. apply (names m Im). rewrite Nm, <- Ntob, Nt. exact Mn.
    - apply filter_In. split; [exact Itt|]. apply Forall_app in Mts as (_ & Mts). inversion Mts as [|? ? Mt _]; subst. rewrite Mt. reflexivity.
    - rewrite <- Nt, Ntob, <- Nm. symmetry. exact (proj1 Mo). }
  subst tt. destruct Sh as (_ & Vs & _). destruct Mo as (_ & _ & _ & Mv & _).
  rewrite Vo, zidx_map_some in Eb. destruct (zidx (oVerts base) x1) as [pos|] eqn:EX; [|discriminate Eb]. cbn [option_map] in Eb.
  assert (VX : zidx (map Some (oVerts base)) x1 = Some (Some pos)) by (rewrite zidx_map_some, EX; reflexivity). rewrite Vs, zidx_map_some in VX. destruct (zidx src x1) as [id|] eqn:ES; [|discriminate VX]. cbn [option_map] in VX.
  destruct (zidx (pVerts p) id) as [v|] eqn:EV; [|discriminate VX]. cbn [option_map] in VX. assert (Epos : pos = flip_z (pvPos v)) by congruence.
  rewrite Vt, zidx_map_some, Mv, zidx_map_some, (zidx_combine src (oVerts base) x1 id pos ES EX) in Eq. cbn [option_map fst snd] in Eq.
  exists m, id, v. split; [exact Im|]. split; [exact Nm|]. split; [exact EV|].
  assert (B1 : b = move (flip_z (pvPos v))) by congruence. assert (B2 : q = move (moved m id (flip_z (pvPos v)))) by congruence.
  split; [exists v, y; rewrite <- B1; auto|]. rewrite Eoff, B1, B2. reflexivity.
Qed.
End Proofs.

Section Moved.
Context {T : Type} {N : Num T}.
Lemma moved_none (m : pmorph T) id pos : ~ In id (map fst (phVerts m)) -> moved m id pos = pos.
Proof.
  unfold moved. revert pos. induction (phVerts m) as [|[i d] l IH]; intros pos H; [reflexivity|]. cbn [fold_left fst snd map] in *. destruct (Z.eqb_spec i id) as [->|NE]; [exfalso; apply H; left; reflexivity|].
  apply IH. intros I. apply H. right. exact I.
Qed.
Lemma moved_once (m : pmorph T) id d pos : NoDup (map fst (phVerts m)) -> In (id, d) (phVerts m) -> moved m id pos = v3add pos (flip_z d).
Proof.
  unfold moved. revert pos. induction (phVerts m) as [|[i e] l IH]; intros pos ND I; [destruct I|]. cbn [fold_left fst snd map] in *. inversion ND as [|? ? H ND']; subst. destruct I as [E|I].
  - injection E as -> ->. rewrite Z.eqb_refl. exact (moved_none (mkPMorph "" l []) id _ H).
  - destruct (Z.eqb_spec i id) as [->|NE]; [|apply IH; assumption]. exfalso. apply H. apply (in_map fst) in I. exact I.
Qed.
End Moved.
