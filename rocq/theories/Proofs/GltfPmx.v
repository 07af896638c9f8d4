(** From glTF to PMX. *)
From Coq Require Import String List ZArith Bool Lia Permutation.
From Verif.Model Require Import Num Vec Matrix Mqo MqoDoc Mmd2Mqo Mqo2Mmd Gltf Gltf2Mqo GltfScene.
From Verif Require Import Spec.Gltf2MqoSpec Spec.GltfSceneSpec Spec.Mqo2MmdSpec Spec.DrawnSpec Spec.FbxPmxSpec Spec.GltfPmxSpec.
From Verif Require Import Proofs.Mqo2MmdTop Proofs.Gltf2MqoProofs Proofs.GltfSceneProofs Proofs.FbxPmx.
Import ListNotations.
Local Open Scope Z_scope.
Local Open Scope list_scope.

Lemma in_slices {A} (slices : list (list A)) : forall s k x,
  In (k, x) (flat_map (fun ks => map (pair (fst ks)) (snd ks)) (combine (seq s (length slices)) slices)) <->
  exists i sl, k = (s + i)%nat /\ nth_error slices i = Some sl /\ In x sl.
Proof.
  induction slices as [|sl slices IH]; intros s k x; cbn [length seq combine flat_map fst snd].
  - split; [intros [] | intros ([|i] & sl & _ & E & _); discriminate].
  - rewrite in_app_iff, IH, in_map_iff. split.
    + intros [(y & [= <- <-] & I)|(i & sl' & -> & E & I)]; [exists 0%nat, sl | exists (S i), sl']; repeat split; auto; lia.
    + intros ([|i] & sl' & -> & E & I); [injection E as <-; left; exists x; rewrite Nat.add_0_r; auto|].
      right. exists i, sl'. repeat split; auto. lia.
Qed.

Section Proofs.
Context {T : Type} {N : Num T}.
Variables (facet half : T) (d : xdoc T) (doc : document T).
Hypothesis EI : import_scene facet half d = Some doc.
Hypothesis HS : Forall simple_mesh (xdMeshes d).
Hypothesis HN : nodes_in_place d.

(** Every face of an imported document is a triangle of the scene. *)
Lemma imported_face o f : In o (dObjects doc) -> In f (oFaces o) -> oVisible o = true /\ (exists m, In m (xdMeshes d) /\ oName o = xmName m) /\
  exists x y z a b c, fVerts f = [x; z; y] /\ zidx (oVerts o) x = Some a /\ zidx (oVerts o) y = Some b /\ zidx (oVerts o) z = Some c.
Proof.
  intros Ho Hf. destruct (import_scene_spec facet half d doc EI) as [_ F]. pose proof HS as HS0. rewrite Forall_forall in HS0.
  destruct (forall2_in_r _ _ _ F o Ho) as (j & Hj & m & Hmesh & Hi). pose proof (nth_error_In _ _ Hmesh) as Im.
  destruct (HS0 m Im) as (pos & HS'). pose proof Hi as Hi0. unfold import_xmesh in Hi.
  destruct (import_mesh_spec facet _ _ Hi) as (Nm & Vi & _ & groups & Hfs & FG). cbn [gmPrims] in FG. cbn [gmName] in Nm.
  split; [exact Vi|]. split; [exists m; auto|].
  rewrite Hfs in Hf. apply in_concat in Hf as (gs & Hgs & Hf). destruct (forall2_in_r _ _ _ FG gs Hgs) as (p0 & Hp & IP).
  apply in_map_iff in Hp as (p & <- & Hp). destruct (HS' p Hp) as (M4 & Ep & Mt & is_ & Eis & _).
  unfold imports_prim in IP. rewrite Eis in IP. destruct IP as [L IP]. apply In_nth_error in Hf as (t & Ht).
  assert (Lt : (t < length is_ / 3)%nat). { rewrite <- L. apply nth_error_Some. congruence. }
  assert (Bd : (3 * t + 2 < length is_)%nat). { pose proof (Nat.mul_div_le (length is_) 3). lia. }
  assert (G : forall u, (u < length is_)%nat -> exists v, nth_error is_ u = Some v). { intros u Hu. destruct (nth_error is_ u) eqn:E; [eauto|]. apply nth_error_None in E. lia. }
  destruct (G (3 * t)%nat ltac:(lia)) as (ia & Ia). destruct (G (3 * t + 1)%nat ltac:(lia)) as (ib & Ib). destruct (G (3 * t + 2)%nat ltac:(lia)) as (ic & Ic).
  destruct (IP t ia ib ic) as (f' & Hf' & Hfv & _). { split; [exact Ia|]. split; assumption. }
  rewrite Ht in Hf'. injection Hf' as <-.
  destruct (simple_corner facet m o pos p is_ Hi0 HS' Hp Eis _ _ Ia) as (q1 & Z1 & _).
  destruct (simple_corner facet m o pos p is_ Hi0 HS' Hp Eis _ _ Ib) as (q2 & Z2 & _).
  destruct (simple_corner facet m o pos p is_ Hi0 HS' Hp Eis _ _ Ic) as (q3 & Z3 & _).
  exists ia, ib, ic, q1, q2, q3. auto.
Qed.

Variables (move turn : vec3 T -> vec3 T) (dd : document T).
Hypothesis OB : Forall2 (moved_object move turn) (dObjects doc) (dObjects dd).
Hypothesis MA : dMaterials dd = dMaterials doc.

Lemma moved_at o o' i a : moved_object move turn o o' -> zidx (oVerts o) i = Some a -> zidx (oVerts o') i = Some (move a).
Proof. intros (V & _) E. rewrite V. unfold zidx in *. destruct (i <? 0); [discriminate|]. now apply map_nth_error. Qed.

Theorem gltf_pmx_exported (scale centi : T) bones sets : to_mmd scale centi dd bones sets <> None.
Proof.
  apply to_mmd_total. unfold valid_faces. apply Forall_forall. intros o' Ho'. destruct (forall2_in_r _ _ _ OB o' Ho') as (o & Ho & MO).
  pose proof MO as (V & _ & _ & _ & _ & _ & _ & Fa). rewrite Fa, Forall_map. apply Forall_forall. intros f Hf. cbn [fVerts].
  destruct (imported_face o f Ho Hf) as (_ & _ & x & y & z & a & b & c & -> & Ex & Ey & Ez).
  assert (G : forall i q, zidx (oVerts o) i = Some q -> 0 <= i < Z.of_nat (length (oVerts o'))).
  { intros i q E. rewrite V, map_length. unfold zidx in E. destruct (Z.ltb_spec i 0); [discriminate|]. assert (Z.to_nat i < length (oVerts o))%nat by (apply nth_error_Some; congruence). lia. }
  repeat constructor; eapply G; eassumption.
Qed.

Variables (scale centi : T) (bones : list (bone T)) (sets : list target_list) (p : pmodel T).
Hypothesis EP : to_mmd scale centi dd bones sets = Some p.
Hypothesis ME : materials_exist d.
Hypothesis NT : no_targets d sets.

Lemma mats_length : length (dMaterials doc) = length (xdMats d).
Proof. destruct (import_scene_spec facet half d doc EI) as [F _]. clear - F. induction F; cbn; congruence. Qed.

(** The triangles of a material are those of the faces that the scene shows with it. *)
Lemma tris_in k t : In t (material_triangles sets (dObjects dd) k) <->
  exists o o' f x y z, In o (dObjects doc) /\ moved_object move turn o o' /\ In o' (dObjects dd) /\ In f (oFaces o) /\ fMaterial f = k /\ fVerts f = [x; z; y] /\
    map (fun c => (fst (fst c), snd (fst c))) t = [(o', x); (o', z); (o', y)] /\
    t = corners o' (mkFace (fUID f) (fVerts f) (fMaterial f) (fUVs f) (map (option_map turn) (fNormals f))).
Proof.
  unfold material_triangles. rewrite in_flat_map. split.
  - intros (o' & Io & It). apply filter_In in Io as (Io & _). destruct (forall2_in_r _ _ _ OB o' Io) as (o & Ho & MO).
    pose proof MO as (V & _ & _ & _ & _ & _ & _ & Fa). rewrite Fa in It. apply in_flat_map in It as (f' & If & It). apply in_map_iff in If as (f & <- & If).
    destruct (imported_face o f Ho If) as (_ & _ & x & y & z & a & b & c & Fv & _). cbn [fMaterial] in It.
    destruct (Z.eqb_spec (fMaterial f) k) as [Ek|]; [|destruct It].
    exists o, o', f, x, y, z. do 6 (split; [assumption|]). unfold triangles, corners in *. cbn [fVerts fUVs] in *. rewrite Fv in *. cbn in It. destruct It as [<-|[]]. split; reflexivity.
  - intros (o & o' & f & x & y & z & Ho & MO & Ho' & If & Ek & Fv & _ & ->). exists o'.
    destruct (imported_face o f Ho If) as (Vi & (m & Im & Nm) & _). pose proof MO as (V & _ & Na & Vs & _ & _ & _ & Fa). split.
    + apply filter_In. split; [exact Ho'|]. unfold exported. rewrite Vs, Vi. cbn [andb]. apply negb_true_iff.
      destruct (existsb _ sets) eqn:E; [|reflexivity]. exfalso. apply existsb_exists in E as (s & Is & E). apply existsb_exists in E as (t & It & E).
      apply String.eqb_eq in E. subst t. apply (NT m s Im Is). rewrite <- Nm, <- Na. exact It.
    + rewrite Fa. apply in_flat_map. eexists. split; [apply in_map; exact If|]. cbn [fMaterial]. rewrite Ek, Z.eqb_refl.
      unfold triangles, corners. cbn [fVerts fUVs]. rewrite Fv. cbn. left. reflexivity.
Qed.

Lemma corner_vertex o o' i a u id : moved_object move turn o o' -> zidx (oVerts o) i = Some a -> at_corner scale p id (o', i, u) -> vertex_at p id (scaled scale (move a)).
Proof. intros MO E (x & q & Ex & Eq & Ep & _). rewrite (moved_at o o' i a MO E) in Eq. injection Eq as <-. exists x. auto. Qed.
Lemma corner_list (o' : object T) t x y z ids : map (fun c => (fst (fst c), snd (fst c))) t = [(o', x); (o', z); (o', y)] -> Forall2 (fun c id => at_corner scale p id c) t ids ->
  exists i j k ux uy uz, ids = [i; k; j] /\ at_corner scale p i (o', x, ux) /\ at_corner scale p j (o', y, uy) /\ at_corner scale p k (o', z, uz).
Proof.
  intros E F. destruct t as [|[[o1 v1] u1] [|[[o2 v2] u2] [|[[o3 v3] u3] [|]]]]; try discriminate E. cbn in E. injection E as -> -> -> -> -> ->.
  inversion F as [|? i ? r A F1]; subst. inversion F1 as [|? k ? r1 B F2]; subst. inversion F2 as [|? j ? r2 C F3]; subst. inversion F3; subst.
  exists i, j, k, u1, u3, u2. auto.
Qed.

Theorem gltf_pmx_drawn : length (face_owners (pMats p)) = length (pFaces p) /\ map pmName (pMats p) = map (fun m => gtName (xtMat m)) (xdMats d) /\
  (forall k a b c, GltfSceneSpec.drawn d (Some k) a b c -> exists m ids, k = Z.of_nat m /\ In (m, ids) (painted_faces p) /\ face_at p ids (scaled scale (move a)) (scaled scale (move b)) (scaled scale (move c))) /\
  (forall m ids, In (m, ids) (painted_faces p) -> exists a b c, GltfSceneSpec.drawn d (Some (Z.of_nat m)) a b c /\ face_at p ids (scaled scale (move a)) (scaled scale (move b)) (scaled scale (move c))).
Proof.
  destruct (to_mmd_faces scale centi dd bones sets p EP) as (NMS & slices & S1 & S2 & S3). rewrite MA in NMS, S3. rewrite mats_length in S3.
  destruct (owners_of slices (pMats p) 0 S2) as (OW1 & OW2). cbn zeta in OW1, OW2. fold (face_owners (pMats p)) in OW1, OW2. rewrite <- S1 in OW1, OW2.
  assert (SP : forall i sl, nth_error slices i = Some sl -> Forall2 (Forall2 (fun c id => at_corner scale p id c)) (material_triangles sets (dObjects dd) (Z.of_nat i)) sl).
  { clear - S3. revert S3. generalize (length (xdMats d)) as n. intros n S3.
    assert (G : forall s n slices, Forall2 (fun k s => Forall2 (Forall2 (fun c id => at_corner scale p id c)) (material_triangles sets (dObjects dd) (Z.of_nat k)) s) (seq s n) slices ->
      forall i sl, nth_error slices i = Some sl -> Forall2 (Forall2 (fun c id => at_corner scale p id c)) (material_triangles sets (dObjects dd) (Z.of_nat (s + i))) sl).
    { clear. intros s n. revert s. induction n as [|n IH]; intros s slices H i sl E; inversion H; subst; [destruct i; discriminate|]. destruct i as [|i]; [injection E as <-; rewrite Nat.add_0_r; assumption|].
      replace (s + S i)%nat with (S s + i)%nat by lia. eapply IH; eassumption. }
    exact (G 0%nat n slices S3). }
  assert (LS : length slices = length (xdMats d)). { clear - S3. revert S3. generalize 0%nat as s. generalize (length (xdMats d)) as n. revert slices. induction slices as [|sl slices IH]; intros [|n] s H; inversion H; subst; [reflexivity|]. cbn. f_equal. eapply IH; eassumption. }
  destruct (scene_looks facet half d doc EI HS HN) as (LK1 & LK2).
  split; [exact OW1|]. split.
  { rewrite NMS. destruct (import_scene_spec facet half d doc EI) as [F _]. clear - F. induction F as [|m r l r' H F IH]; [reflexivity|]. cbn [map]. f_equal; [|exact IH].
    unfold import_xmat in H. destruct (material_texture d m); [|discriminate]. injection H as <-. reflexivity. }
  unfold painted_faces. rewrite OW2. split.
  - intros k a b c D. destruct (LK1 _ _ _ _ D) as (k' & [= <-] & (o & f & x & y & z & Ho & If & Ek & Fv & Ex & Ey & Ez)).
    assert (Rk : 0 <= k < Z.of_nat (length (xdMats d))).
    { destruct D as (i & n & g & j & m & pr & k1 & x1 & y1 & z1 & qa & qb & qc & _ & _ & _ & Hm & Hp & Hk & _). exact (ME m pr k (nth_error_In _ _ Hm) Hp Hk). }
    destruct (forall2_in_l _ _ _ OB o Ho) as (o' & Ho' & MO).
    destruct (nth_error slices (Z.to_nat k)) as [sl|] eqn:Esl; [|apply nth_error_None in Esl; lia]. pose proof (SP _ _ Esl) as F. rewrite Z2Nat.id in F by lia.
    set (t := corners o' (mkFace (fUID f) (fVerts f) (fMaterial f) (fUVs f) (map (option_map turn) (fNormals f)))).
    assert (Et : map (fun c => (fst (fst c), snd (fst c))) t = [(o', x); (o', z); (o', y)]). { unfold t, corners. cbn [fVerts fUVs]. rewrite Fv. reflexivity. }
    assert (It : In t (material_triangles sets (dObjects dd) k)).
    { apply tris_in. exists o, o', f, x, y, z. repeat split; try assumption; apply MO. }
    destruct (forall2_in_l _ _ _ F t It) as (ids & Ii & Fi). destruct (corner_list o' t x y z ids Et Fi) as (i & j & l & ux & uy & uz & -> & A1 & A2 & A3).
    exists (Z.to_nat k), [i; l; j]. split; [lia|]. split; [apply in_slices; exists (Z.to_nat k), sl; auto|].
    exists i, j, l. split; [reflexivity|]. split; [eapply corner_vertex; eassumption|]. split; eapply corner_vertex; eassumption.
  - intros m ids I. apply in_slices in I as (i & sl & -> & Esl & Ii). cbn [Nat.add]. pose proof (SP _ _ Esl) as F.
    destruct (forall2_in_r _ _ _ F ids Ii) as (t & It & Fi). apply tris_in in It as (o & o' & f & x & y & z & Ho & MO & Ho' & If & Ek & Fv & Et & _).
    destruct (imported_face o f Ho If) as (_ & _ & x' & y' & z' & a & b & c & Fv' & Ex & Ey & Ez). rewrite Fv in Fv'. injection Fv' as <- <- <-.
    exists a, b, c. split; [apply LK2; exists o, f, x, y, z; auto 8|].
    destruct (corner_list o' t x y z ids Et Fi) as (i1 & j & l & ux & uy & uz & -> & A1 & A2 & A3).
    exists i1, j, l. split; [reflexivity|]. split; [eapply corner_vertex; eassumption|]. split; eapply corner_vertex; eassumption.
Qed.

(** None is lost or doubled. *)
Lemma sum_flat {A B} (f : A -> list B) l : length (flat_map f l) = list_sum (map (fun a => length (f a)) l).
Proof. induction l as [|a l IH]; [reflexivity|]. cbn [flat_map map list_sum fold_right]. rewrite app_length, IH. reflexivity. Qed.
Lemma sum_concat {A} (l : list (list A)) : length (concat l) = list_sum (map (@length A) l).
Proof. induction l as [|a l IH]; [reflexivity|]. cbn [concat map list_sum fold_right]. rewrite app_length, IH. reflexivity. Qed.
Lemma mesh_faces m o : import_xmesh facet m = Some o -> length (oFaces o) = mesh_triangles m.
Proof.
  unfold import_xmesh. intro H. destruct (import_mesh_spec facet _ _ H) as (_ & _ & _ & groups & -> & F). cbn [gmPrims] in F.
  rewrite sum_concat. unfold mesh_triangles. f_equal. clear H. revert groups F. induction (xmPrims m) as [|q l IH]; intros groups F; inversion F as [|? gs ? r A F']; subst; [reflexivity|].
  cbn [map]. rewrite (IH _ F'). f_equal. unfold imports_prim in A. destruct (gpIndices (xpPrim q)); [apply A | rewrite A; reflexivity].
Qed.
Lemma face_material o f : In o (dObjects doc) -> In f (oFaces o) -> 0 <= fMaterial f < Z.of_nat (length (xdMats d)).
Proof.
  intros Ho If. destruct (imported_face o f Ho If) as (_ & _ & x & y & z & a & b & c & Fv & Ex & Ey & Ez).
  destruct (scene_looks facet half d doc EI HS HN) as (_ & LK2).
  assert (D : GltfSceneSpec.drawn d (Some (fMaterial f)) a b c) by (apply LK2; exists o, f, x, y, z; auto 8).
  destruct D as (i & n & g & j & m & pr & k1 & x1 & y1 & z1 & qa & qb & qc & _ & _ & _ & Hm & Hp & Hk & _). exact (ME m pr _ (nth_error_In _ _ Hm) Hp Hk).
Qed.
Theorem gltf_pmx_count : length (pFaces p) = scene_triangles d.
Proof.
  destruct (to_mmd_faces scale centi dd bones sets p EP) as (_ & slices & S1 & _ & S3). rewrite MA, mats_length in S3.
  assert (Q1 : length (pFaces p) = length (flat_map (fun k => filter (fun e => fst e =? Z.of_nat k) (all_tagged sets (dObjects dd))) (seq 0 (length (xdMats d))))).
  { rewrite S1, sum_concat, sum_flat. f_equal. clear - S3. induction S3 as [|k s ks slices H S3 IH]; [reflexivity|]. cbn [map]. rewrite IH. f_equal.
    rewrite <- of_material, map_length. clear - H. induction H; cbn; congruence. }
  assert (AT : forall e, In e (all_tagged sets (dObjects dd)) -> 0 <= fst e < Z.of_nat (length (xdMats d))).
  { intros e I. unfold all_tagged in I. apply in_flat_map in I as (o' & Io & I). apply filter_In in Io as (Io & _). destruct (forall2_in_r _ _ _ OB o' Io) as (o & Ho & MO).
    pose proof MO as (_ & _ & _ & _ & _ & _ & _ & Fa). rewrite Fa in I. apply in_flat_map in I as (f' & If & I). apply in_map_iff in If as (f & <- & If).
    unfold tagged in I. apply in_map_iff in I as (t & <- & _). exact (face_material o f Ho If). }
  rewrite Q1, <- (Permutation_length (by_number _ _)).
  replace (filter _ _) with (all_tagged sets (dObjects dd)).
  2:{ clear - AT. revert AT. generalize (all_tagged sets (dObjects dd)) as l. induction l as [|e l IH]; intro AT; [reflexivity|]. cbn [filter].
      pose proof (AT e (or_introl eq_refl)). destruct (Z.leb_spec 0 (fst e)); [|lia]. destruct (Z.ltb_spec (fst e) (Z.of_nat (length (xdMats d)))); [|lia]. cbn [andb]. f_equal. apply IH. intros x I. apply AT. right; exact I. }
  assert (QO : length (all_tagged sets (dObjects dd)) = list_sum (map (fun o => length (oFaces o)) (dObjects doc))).
  { clear Q1 AT S1 S3. unfold all_tagged. rewrite sum_flat.
    assert (G : forall os os', Forall2 (moved_object move turn) os os' -> (forall o, In o os -> In o (dObjects doc)) ->
      list_sum (map (fun o => length (flat_map (tagged o) (oFaces o))) (filter (exported sets) os')) = list_sum (map (fun o => length (oFaces o)) os)).
    { induction 1 as [|o o' os os' MO F IH]; intro Sub; [reflexivity|]. specialize (IH (fun x I => Sub x (or_intror I))). pose proof (Sub o (or_introl eq_refl)) as Ho.
      pose proof MO as (_ & _ & Na & Vs & _ & _ & _ & Fa).
      assert (LT : length (flat_map (tagged o') (oFaces o')) = length (oFaces o)).
      { rewrite Fa, sum_flat, map_map. assert (G : forall fs, (forall f, In f fs -> In f (oFaces o)) -> list_sum (map (fun f => length (tagged o' (mkFace (fUID f) (fVerts f) (fMaterial f) (fUVs f) (map (option_map turn) (fNormals f))))) fs) = length fs).
        { induction fs as [|f fs IHf]; intro Sb; [reflexivity|]. cbn [map list_sum fold_right length]. fold (list_sum (map (fun f => length (tagged o' (mkFace (fUID f) (fVerts f) (fMaterial f) (fUVs f) (map (option_map turn) (fNormals f))))) fs)).
          rewrite (IHf (fun x I => Sb x (or_intror I))). destruct (imported_face o f Ho (Sb f (or_introl eq_refl))) as (_ & _ & x & y & z & a & b & c & Fv & _).
          unfold tagged. rewrite map_length. unfold triangles, Mqo2MmdSpec.corners. cbn [fVerts fUVs]. rewrite Fv. reflexivity. }
        apply (G (oFaces o)). auto. }
      cbn [filter]. destruct (exported sets o') eqn:Ex; cbn [map list_sum fold_right].
      - fold (list_sum (map (fun o => length (flat_map (tagged o) (oFaces o))) (filter (exported sets) os'))). rewrite IH, LT. reflexivity.
      - fold (list_sum (map (fun o => length (oFaces o)) os)). rewrite IH. destruct (oFaces o) as [|f fs] eqn:Ef; [reflexivity|]. exfalso.
        destruct (imported_face o f Ho ltac:(rewrite Ef; left; reflexivity)) as (Vi & (m & Im & Nm) & _).
        unfold exported in Ex. rewrite Vs, Vi in Ex. cbn [andb] in Ex. apply negb_false_iff in Ex. apply existsb_exists in Ex as (s & Is & E). apply existsb_exists in E as (t & It & E).
        apply String.eqb_eq in E. subst t. apply (NT m s Im Is). rewrite <- Nm, <- Na. exact It. }
    apply (G _ _ OB). auto. }
  rewrite QO. clear QO AT Q1. destruct (import_scene_spec facet half d doc EI) as [_ F]. unfold scene_triangles. clear - F. revert F. generalize (dObjects doc) as os.
  induction (xdNodes d) as [|n ns IH]; intros os F; cbn [flat_map] in F; [inversion F; reflexivity|].
  destruct (xnMesh n) as [i|] eqn:En; cbn [map list_sum fold_right]; rewrite En.
  - cbn [app] in F. inversion F as [|? o ? os' (m & Hm & Hi) F']; subst. rewrite Hm. cbn [map list_sum fold_right]. rewrite (mesh_faces m o Hi). f_equal. exact (IH _ F').
  - exact (IH _ F).
Qed.
End Proofs.
