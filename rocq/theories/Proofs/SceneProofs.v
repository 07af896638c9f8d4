(** Unity scenes (C87 to C89). *)
From Coq Require Import String List ZArith Reals Lra Lia Bool.
From Verif.Model Require Import Num NumR Vec Matrix Euler Mqo MqoDoc MqoTransform Unity UnityShape Unity2Mqo.
From Verif.Spec Require Import GeomSpec UnitySpec SceneSpec.
From Verif.Proofs Require Import MatrixLemmas UnityProofs UnityMesh MorphProofs BoneTurnSums.
Import ListNotations.
Local Open Scope list_scope.
Local Open Scope R_scope.

(** ** Lists of blocks *)
Lemma blocks_app scale load import sc mats : forall n vs oss vs' oss', blocks scale load import sc mats n vs oss -> blocks scale load import sc mats (n + length (concat oss)) vs' oss' -> blocks scale load import sc mats n (vs ++ vs') (oss ++ oss').
Proof.
  intros n vs oss vs' oss' H. induction H as [n|n v vs os oss B H IH]; intros H'; cbn [app concat length] in *; [rewrite Nat.add_0_r in H'; exact H'|]. constructor; [exact B|]. apply IH. rewrite app_length, Nat.add_assoc in H'. exact H'.
Qed.
Definition extends {A} (l l' : list A) : Prop := exists x, l' = l ++ x.
Lemma extends_refl {A} (l : list A) : extends l l. Proof. exists []. rewrite app_nil_r. reflexivity. Qed.
Lemma extends_trans {A} (a b c : list A) : extends a b -> extends b c -> extends a c.
Proof. intros [x ->] [y ->]. exists (x ++ y). rewrite app_assoc. reflexivity. Qed.
Lemma extends_nth {A} (a b : list A) k x : extends a b -> nth_error a k = Some x -> nth_error b k = Some x.
Proof. intros [y ->] H. rewrite nth_error_app1; [exact H|]. apply nth_error_Some. congruence. Qed.
Lemma block_extends scale load import sc mats mats' n v os : extends mats mats' -> block scale load import sc mats n v os -> block scale load import sc mats' n v os.
Proof.
  intros E (o & x & added & H1 & H2 & H3 & H4 & H5 & H6). exists o, x, added. do 5 (split; [assumption|]). destruct (mesh_of o) as [[[m en] refs]|]; [|exact H6]. destruct (mesh_name m) as [name|].
  - destruct H6 as (A & (B1 & B2 & B3) & C). split; [exact A|]. split; [|exact C]. split; [exact B1|]. split; [exact B2|]. intros r rs Er. destruct (B3 r rs Er) as (k & mm & D1 & D2 & D3). exists k, mm. split; [exact D1|]. split; [eapply extends_nth; eassumption|exact D3].
  - destruct H6 as (A & B & C & [D|(D & ks & tr & k & ys & ms & D1 & D2 & D3 & D4)]); (do 3 (split; [assumption|])); [left; exact D|]. right. split; [exact D|]. exists ks, tr, k, ys, ms. split; [exact D1|]. split; [exact D2|]. split; [|exact D4].
    clear - D3 E. induction D3 as [|r k rs ks (m & A & B) D3 IH]; constructor; [|exact IH]. exists m. split; [eapply extends_nth; eassumption|exact B].
Qed.
Lemma blocks_extends scale load import sc mats mats' n vs oss : extends mats mats' -> blocks scale load import sc mats n vs oss -> blocks scale load import sc mats' n vs oss.
Proof. intros E H. induction H; constructor; [eapply block_extends; eassumption|assumption]. Qed.

(** ** Places *)
Definition follows (scale : R) (path : list (transform R)) (m : mat4 R) : Prop := forall p, mat_apply m p = doc_place scale path p.
Lemma mirror_twice (v : vec3 R) : mirror (mirror v) = v. Proof. destruct v. unfold mirror; mproj; rnum. comps; ring. Qed.
Lemma follows_root scale : follows scale [] (mat_scale scale scale scale).
Proof. intros [a b c]. unfold doc_place, place, mirror, mat_apply, mat_scale, v3scale; mproj; rnum. cbn [fold_right]. comps; mproj; ring. Qed.
Lemma follows_child scale path m t : follows scale path m -> follows scale (path ++ [t]) (mat_mul m (get_matrix t)).
Proof.
  intros H p. rewrite mat_apply_mul by apply get_matrix_affine. rewrite H. rewrite <- (mirror_twice p) at 1. rewrite get_matrix_mirror. unfold doc_place, place. rewrite fold_right_app. cbn [fold_right]. rewrite mirror_twice. reflexivity.
Qed.

(** ** Materials *)
Definition cache_ok (load : string -> option umat) (ms : list (material R)) (c : list cached) : Prop :=
  NoDup (map (fun e : cached => fst (fst e)) c) /\ NoDup (map (fun e : cached => snd (fst e)) c) /\
  Forall (fun e : cached => nth_error ms (snd (fst e)) = Some (fst (make_material load (fst (fst e)))) /\ snd e = snd (make_material load (fst (fst e)))) c.
Lemma find_unique {A B} (key : A -> B) (eqb : B -> B -> bool) (l : list A) x : (forall a b, eqb a b = true <-> a = b) -> NoDup (map key l) -> In x l -> find (fun e => eqb (key e) (key x)) l = Some x.
Proof.
  intros E. induction l as [|y l IH]; intros N H; [destruct H|]. inversion N as [|? ? N1 N2]; subst. cbn [find]. destruct H as [->|H].
  - rewrite (proj2 (E _ _) eq_refl). reflexivity.
  - destruct (eqb (key y) (key x)) eqn:Q; [|apply IH; assumption]. apply E in Q. exfalso. apply N1. rewrite Q. apply in_map. exact H.
Qed.
Lemma cache_find_in c guid i s : cache_find c guid = Some (i, s) -> In (guid, i, s) c.
Proof.
  unfold cache_find. destruct (find _ c) as [[[g j] t]|] eqn:E; [|discriminate]. intros H. injection H as <- <-. apply find_some in E as [E Q]. cbn [fst snd] in *. apply String.eqb_eq in Q. subst g. exact E.
Qed.
Lemma cache_find_none c guid : cache_find c guid = None -> ~ In guid (map (fun e : cached => fst (fst e)) c).
Proof.
  unfold cache_find. destruct (find _ c) as [e|] eqn:E; [discriminate|]. intros _ H. apply in_map_iff in H as (e & He & H). pose proof (find_none _ _ E e H) as Q. cbn beta in Q. rewrite He, String.eqb_refl in Q. discriminate.
Qed.
Lemma uv_scale_in c g i s : NoDup (map (fun e : cached => fst (fst e)) c) -> NoDup (map (fun e : cached => snd (fst e)) c) -> In (g, i, s) c -> uv_scale_of c (Z.of_nat i) = s.
Proof.
  intros N1 N2 H. unfold uv_scale_of, guid_of, cache_find.
  assert (F1 : find (fun e : cached => (Z.of_nat (snd (fst e)) =? Z.of_nat i)%Z) c = Some (g, i, s)).
  { apply (find_unique (fun e : cached => snd (fst e)) (fun a b => (Z.of_nat a =? Z.of_nat b)%Z) c (g, i, s)); [|exact N2|exact H]. intros a b. rewrite Z.eqb_eq. lia. }
  rewrite F1. cbn [fst]. assert (F2 : find (fun e : cached => String.eqb (fst (fst e)) g) c = Some (g, i, s)).
  { apply (find_unique (fun e : cached => fst (fst e)) String.eqb c (g, i, s)); [exact String.eqb_eq|exact N1|exact H]. }
  rewrite F2. reflexivity.
Qed.
Lemma NoDup_snoc {A} (l : list A) x : NoDup l -> ~ In x l -> NoDup (l ++ [x]).
Proof.
  intros N H. induction l as [|y l IH]; cbn; [constructor; [intros []|constructor]|]. inversion N; subst. constructor.
  - rewrite in_app_iff. intros [X|[X|[]]]; [contradiction|]. apply H. left. auto.
  - apply IH; [assumption|]. intros X. apply H. right. exact X.
Qed.
Lemma add_material_ok load ms c r ms' c' i : cache_ok load ms c -> add_material load ms c r = (ms', c', i) ->
  cache_ok load ms' c' /\ extends ms ms' /\ extends c c' /\ In (rGUID r, i, snd (make_material load (rGUID r))) c'.
Proof.
  intros (N1 & N2 & F) H. unfold add_material in H. destruct (cache_find c (rGUID r)) as [[j s]|] eqn:E.
  - injection H as <- <- <-. split; [split; [exact N1|split; [exact N2|exact F]]|]. split; [apply extends_refl|]. split; [apply extends_refl|]. apply cache_find_in in E. rewrite Forall_forall in F. destruct (F _ E) as [_ Q]. cbn [fst snd] in Q. rewrite <- Q. exact E.
  - apply cache_find_none in E. destruct (make_material load (rGUID r)) as [m s] eqn:M. injection H as <- <- <-. split; [split; [|split]|].
    + rewrite map_app. apply NoDup_snoc; assumption.
    + rewrite map_app. apply NoDup_snoc; [exact N2|]. cbn. intros X. apply in_map_iff in X as (e & He & X). rewrite Forall_forall in F. destruct (F e X) as [Q _]. assert (snd (fst e) < length ms)%nat by (apply nth_error_Some; congruence). lia.
    + apply Forall_app. split.
      * eapply Forall_impl; [|exact F]. intros e [Q1 Q2]. split; [|exact Q2]. rewrite nth_error_app1; [exact Q1|]. apply nth_error_Some. congruence.
      * constructor; [|constructor]. cbn [fst snd]. rewrite M, nth_error_app2, Nat.sub_diag by lia. auto.
    + split; [eexists; reflexivity|]. split; [eexists; reflexivity|]. apply in_or_app. right. left. reflexivity.
Qed.
Lemma add_materials_ok load : forall rs ms c ms' c' ks, cache_ok load ms c -> add_materials load ms c rs = (ms', c', ks) ->
  cache_ok load ms' c' /\ extends ms ms' /\ extends c c' /\ Forall2 (fun r k => In (rGUID r, k, snd (make_material load (rGUID r))) c') rs ks.
Proof.
  induction rs as [|r rs IH]; intros ms c ms' c' ks C H; cbn [add_materials] in H.
  - injection H as <- <- <-. split; [exact C|]. split; [apply extends_refl|]. split; [apply extends_refl|constructor].
  - destruct (add_material load ms c r) as [[ms1 c1] i] eqn:E1. destruct (add_materials load ms1 c1 rs) as [[ms2 c2] is] eqn:E2. injection H as <- <- <-.
    destruct (add_material_ok _ _ _ _ _ _ _ C E1) as (C1 & X1 & Y1 & I1). destruct (IH _ _ _ _ _ C1 E2) as (C2 & X2 & Y2 & I2). split; [exact C2|]. split; [eapply extends_trans; eassumption|]. split; [eapply extends_trans; eassumption|].
    constructor; [|exact I2]. destruct Y2 as [z ->]. apply in_or_app. left. exact I1.
Qed.
Lemma vec3_zero_len (e : vec3 R) : Rltb 0 (sqrt (vx e * vx e + vy e * vy e + vz e * vz e)) = true <-> e <> mkV3 0 0 0.
Proof.
  destruct e as [a b c]. cbn [vx vy vz]. split.
  - intros H E. injection E as -> -> ->. apply Rltb_true in H. replace (0 * 0 + 0 * 0 + 0 * 0) with 0 in H by ring. rewrite sqrt_0 in H. lra.
  - intros H. apply Rltb_true. apply sqrt_lt_R0. destruct (Req_dec a 0) as [->|Ha]; [|nra]. destruct (Req_dec b 0) as [->|Hb]; [|nra]. destruct (Req_dec c 0) as [->|Hc]; [|nra]. contradiction H. reflexivity.
Qed.
Lemma make_shows load guid : shows_material load guid (fst (make_material load guid)).
Proof.
  unfold shows_material, make_material. destruct (load guid) as [u|].
  - cbn [fst mtDiffuse mtName mtColor mtTexture mtBump mtEmissionColor]. split; [reflexivity|]. split; [reflexivity|]. split; [intros c ->; reflexivity|]. split; [intros ->; reflexivity|]. split; [intros t s ofs ->; reflexivity|]. split; [intros ->; reflexivity|]. split; [reflexivity|]. split.
    + intros e -> He. rewrite (proj2 (vec3_zero_len e) He). reflexivity.
    + intros [->| ->]; [reflexivity|]. destruct (Rltb 0 _) eqn:Q; [|reflexivity]. apply (proj1 (vec3_zero_len (mkV3 0 0 0))) in Q. contradiction Q. reflexivity.
  - cbn [fst mtDiffuse mtName mtColor mtTexture mtBump mtEmissionColor]. do 5 (split; [reflexivity|]). intros H. destruct (String.eqb_spec guid "0000000000000000f000000000000000"); [contradiction|reflexivity].
Qed.
Lemma make_tiling load guid uv : match snd (make_material load guid) with Some s => scale_uv s uv | None => uv end = tiled (tiling load guid) uv.
Proof.
  unfold make_material, tiling. destruct (load guid) as [u|]; cbn [snd]; [destruct (umMain u) as [[[t s] ofs]|]; cbn [snd]|]; try reflexivity; destruct uv; unfold tiled; cbn; apply f_equal2; ring.
Qed.

(** ** Texture coordinates *)
Definition scaled_face (c : list cached) (f : face R) : list (vec2 R) := match uv_scale_of c (fMaterial f) with Some s => map (scale_uv s) (fUVs f) | None => fUVs f end.
Lemma scale_slices_seq c : forall fs n (pre : list (list (vec2 R))), n = length pre ->
  scale_slices c (combine (map (@fMaterial R) fs) (seq n (length fs))) (pre ++ map (@fUVs R) fs) = pre ++ map (scaled_face c) fs.
Proof.
  induction fs as [|f fs IH]; intros n pre Hn; cbn [map length seq combine scale_slices]; [reflexivity|].
  assert (E : match uv_scale_of c (fMaterial f) with Some s => list_upd (pre ++ fUVs f :: map (@fUVs R) fs) n (map (scale_uv s)) | None => pre ++ fUVs f :: map (@fUVs R) fs end = (pre ++ [scaled_face c f]) ++ map (@fUVs R) fs).
  { unfold scaled_face. destruct (uv_scale_of c (fMaterial f)) as [s|]; rewrite <- app_assoc; cbn [app]; [|reflexivity]. unfold list_upd. subst n. rewrite firstn_app, Nat.sub_diag, firstn_all, skipn_app, Nat.sub_diag, skipn_all. cbn [firstn skipn app]. rewrite app_nil_r. reflexivity. }
  rewrite E, IH by (rewrite app_length; cbn; lia). rewrite <- app_assoc. reflexivity.
Qed.
Lemma scale_faces_seq c fs : scale_faces c (seq 0 (length fs)) fs = map (fun f => set_uvs f (scaled_face c f)) fs.
Proof.
  unfold scale_faces. cbv zeta. pose proof (scale_slices_seq c fs 0 [] eq_refl) as E0. cbn [app] in E0. rewrite E0. clear E0.
  assert (G : forall l n pre, n = length pre -> map (fun p : face R * nat => set_uvs (fst p) (match nth_error (pre ++ map (scaled_face c) l) (snd p) with Some u => u | None => [] end)) (combine l (seq n (length l))) = map (fun f => set_uvs f (scaled_face c f)) l).
  { induction l as [|f l IH]; intros n pre Hn; cbn [length seq combine map]; [reflexivity|]. cbn [fst snd]. rewrite nth_error_app2, Hn, Nat.sub_diag by lia. cbn [nth_error]. f_equal. rewrite <- Hn.
    specialize (IH (S n) (pre ++ [scaled_face c f])). rewrite <- app_assoc in IH. cbn [app] in IH. apply IH. rewrite app_length; cbn; lia. }
  exact (G fs 0%nat [] eq_refl).
Qed.
Lemma scale_faces_verts c slices fs : length slices = length fs -> map (@fVerts R) (scale_faces c slices fs) = map (@fVerts R) fs /\ map (@fMaterial R) (scale_faces c slices fs) = map (@fMaterial R) fs.
Proof.
  unfold scale_faces. cbv zeta. generalize (scale_slices c (combine (map (@fMaterial R) fs) slices) (map (@fUVs R) fs)). intros h. revert slices. induction fs as [|f fs IH]; intros [|k ks] H; cbn in H; try lia; [split; reflexivity|]. cbn [combine map fst snd]. destruct (IH ks ltac:(lia)) as [A B]. rewrite A, B. split; reflexivity.
Qed.

(** ** One object *)
Lemma add_geometry_faces obj tr k vs faces uvs : oVerts obj = [] -> oFaces obj = [] -> let g := add_geometry obj tr k vs faces uvs in
  oVerts g = map (mat_apply tr) vs /\ map (@fVerts R) (oFaces g) = faces /\ Forall (fun f => fMaterial f = Z.of_nat k) (oFaces g) /\ (length faces = length uvs -> map (@fUVs R) (oFaces g) = uvs).
Proof.
  intros Hv Hf. unfold add_geometry. cbv zeta. rewrite Hv, Hf. cbn [length app Z.of_nat oVerts oFaces set_verts set_faces]. split; [reflexivity|]. rewrite !map_map. cbn [fVerts fUVs]. split; [|split].
  - transitivity (map snd (index_list faces)).
    + apply map_ext. intros [n f]. cbn [snd]. rewrite (map_ext _ (fun v => v)) by (intros; lia). apply map_id.
    + unfold index_list. generalize 0%nat. induction faces as [|f l IH]; intros n; cbn; [reflexivity|]. f_equal. apply IH.
  - apply Forall_forall. intros f H. apply in_map_iff in H as (p & <- & _). reflexivity.
  - unfold index_list. intros L. assert (G : forall (l : list (list Z)) (u pre : list (list (vec2 R))) n, n = length pre -> length l = length u -> map (fun x : nat * list Z => match nth_error (pre ++ u) (fst x) with Some y => y | None => [] end) (combine (seq n (length l)) l) = u).
    { induction l as [|a l IH]; intros [|b u] pre n Hn Hl; cbn in Hl; try lia; cbn [length seq combine map fst]; [reflexivity|]. rewrite nth_error_app2, Hn, Nat.sub_diag by lia. cbn [nth_error]. f_equal. rewrite <- Hn. specialize (IH u (pre ++ [b]) (S n)). rewrite <- app_assoc in IH. apply IH; [rewrite app_length; cbn; lia|lia]. }
    exact (G faces uvs [] 0%nat eq_refl L).
Qed.
Lemma mesh_uvs_length name : length (mesh_faces name) = length (mesh_uvs name).
Proof.
  unfold mesh_faces, mesh_uvs, builtin_mesh. destruct (uvs_shape fr om 32 32 16) as (A & B & C & D). unfold same_shape in A, B, C, D. apply (f_equal (@length nat)) in A, B, C, D. rewrite !map_length in A, B, C, D.
  destruct (String.eqb name "Cube"); [exact A|]. destruct (String.eqb name "Plane"); [reflexivity|]. destruct (String.eqb name "Quad"); [reflexivity|]. destruct (String.eqb name "Sphere"); [exact B|]. destruct (String.eqb name "Cylinder"); [exact C|]. destruct (String.eqb name "Capsule"); [exact D|]. reflexivity.
Qed.
Lemma mesh_slices_length name n : (2 <= n)%nat \/ name <> "Cylinder"%string -> length (mesh_slices name n) = n.
Proof.
  intros H. unfold mesh_slices. destruct (String.eqb_spec name "Cylinder"); [|apply seq_length]. rewrite app_length, seq_length. cbn. destruct H; [lia|contradiction].
Qed.
Lemma cylinder_count : length (mesh_faces "Cylinder") = 34%nat. Proof. reflexivity. Qed.

Lemma convert_mesh_ok scale load import st o t cs tr act path n d st' x added : cache_ok load (uMats st) (uCache st) -> goTr o = Some (t, cs) -> n = length (uObjs st) -> follows scale (path ++ [t]) tr ->
  convert_mesh load import st o (local_fields scale t (set_head (new_obj (goName o)) (Z.of_nat (S n)) (Z.of_nat d) act)) tr act = (st', x, added) ->
  cache_ok load (uMats st') (uCache st') /\ extends (uMats st) (uMats st') /\ uObjs st' = uObjs st /\ (uBodies st' = uBodies st /\ uLights st' = uLights st) /\
  forall sc i, nth_error sc i = Some o -> forall int, block scale load import sc (uMats st') n (mkVisit i (path ++ [t]) d act) ((if goLight o then set_internal x int else x) :: added).
Proof.
  intros C Ht Hn F H. set (obj := local_fields scale t (set_head (new_obj (goName o)) (Z.of_nat (S n)) (Z.of_nat d) act)) in *.
  assert (L : forall y, oScale y = oScale obj -> oRotation y = oRotation obj -> oTranslation y = oTranslation obj -> local_of scale t y).
  { intros y E1 E2 E3. unfold local_of. rewrite E1, E2, E3. split; [reflexivity|]. split; reflexivity. }
  assert (Plain : mesh_of o = None -> st' = st -> x = obj -> added = [] -> cache_ok load (uMats st') (uCache st') /\ extends (uMats st) (uMats st') /\ uObjs st' = uObjs st /\ (uBodies st' = uBodies st /\ uLights st' = uLights st) /\
    forall sc i, nth_error sc i = Some o -> forall int, block scale load import sc (uMats st') n (mkVisit i (path ++ [t]) d act) ((if goLight o then set_internal x int else x) :: added)).
  { intros M -> -> ->. split; [exact C|]. split; [apply extends_refl|]. split; [reflexivity|]. split; [split; reflexivity|]. intros sc i Hi int. exists o, (if goLight o then set_internal obj int else obj), []. split; [exact Hi|]. split; [reflexivity|].
    split; [destruct (goLight o); reflexivity|]. split; [destruct (goLight o); reflexivity|]. split; [intros t' cs' E; rewrite Ht in E; injection E as <- <-; destruct (goLight o); apply L; reflexivity|]. rewrite M. destruct (goLight o); repeat split; reflexivity. }
  unfold convert_mesh in H. unfold mesh_of in Plain. rewrite Ht in Plain. destruct (goFilter o) as [[mesh|]|] eqn:EF; try (injection H as <- <- <-; apply Plain; reflexivity). destruct (goRenderer o) as [[en refs]|] eqn:ER; [|injection H as <- <- <-; apply Plain; reflexivity].
  unfold ref_valid in H. destruct (rFile mesh =? 0)%Z eqn:EV; cbn [negb] in H; [injection H as <- <- <-; apply Plain; reflexivity|]. clear Plain.
  assert (M : mesh_of o = Some (mesh, negb (en =? 0)%Z, refs)) by (unfold mesh_of; rewrite Ht, EF, ER, EV; reflexivity).
  destruct (add_materials load (uMats st) (uCache st) refs) as [[ms c] ks] eqn:EA. destruct (add_materials_ok _ _ _ _ _ _ _ C EA) as (C1 & X1 & _ & I1). destruct (mesh_name mesh) as [name|] eqn:EN.
  - destruct (builtin_mesh name) as [[vs faces] uvs] eqn:EB. injection H as <- <- <-. cbn [uMats uCache uObjs uBodies uLights]. split; [exact C1|]. split; [exact X1|]. split; [reflexivity|]. split; [split; reflexivity|]. intros sc i Hi int.
    destruct (add_geometry_faces (set_name obj (oName obj ++ "(" ++ name ++ ")")) tr (hd 0%nat ks) vs faces uvs eq_refl eq_refl) as (G1 & G2 & G3 & G4).
    set (g := add_geometry (set_name obj (oName obj ++ "(" ++ name ++ ")")) tr (hd 0%nat ks) vs faces uvs) in *.
    assert (Lf : length (oFaces g) = length faces) by (rewrite <- G2, map_length; reflexivity).
    assert (Ln : length (mesh_slices name (length (oFaces g))) = length (oFaces g)).
    { apply mesh_slices_length. destruct (String.eqb_spec name "Cylinder") as [->|]; [left|right; assumption]. rewrite Lf. pose proof cylinder_count as CC. unfold mesh_faces in CC. rewrite EB in CC. cbn [fst snd] in CC. lia. }
    destruct (scale_faces_verts c (mesh_slices name (length (oFaces g))) (oFaces g) Ln) as [S1 S2].
    set (y := set_head (set_faces g (scale_faces c (mesh_slices name (length (oFaces g))) (oFaces g))) (oUID g) (oDepth g) (act && negb (en =? 0)%Z)).
    exists o, (if goLight o then set_internal y int else y), []. split; [exact Hi|]. split; [reflexivity|]. split; [destruct (goLight o); reflexivity|]. split; [destruct (goLight o); reflexivity|].
    split; [intros t' cs' E; rewrite Ht in E; injection E as <- <-; destruct (goLight o); apply L; reflexivity|]. rewrite M, EN.
    assert (B : is_mesh scale load ms (mkVisit i (path ++ [t]) d act) name refs y).
    { unfold is_mesh, mesh_verts, mesh_faces, mesh_uvs. rewrite EB. cbn [fst snd vPath]. split; [|split].
      - unfold y. cbn [oVerts set_head set_faces]. rewrite G1. apply map_ext. exact F.
      - unfold y. cbn [oFaces set_head set_faces]. rewrite S1. exact G2.
      - intros r rs Er. subst refs. inversion I1 as [|? k ? ks' Ik Irest Q1 Q2]. subst ks. clear Q1. cbn [hd] in G3. destruct C1 as (N1 & N2 & FC). rewrite Forall_forall in FC. destruct (FC _ Ik) as [Q1 _]. cbn [fst snd] in Q1. exists k, (fst (make_material load (rGUID r))).
        split; [|split; [exact Q1|split; [apply make_shows|]]].
        + unfold y. cbn [oFaces set_head set_faces]. apply Forall_forall. intros f Hf. apply (in_map (@fMaterial R)) in Hf. rewrite S2 in Hf. apply in_map_iff in Hf as (f' & E & Hf). rewrite <- E. rewrite Forall_forall in G3. exact (G3 f' Hf).
        + intros Nc. unfold y. cbn [oFaces set_head set_faces]. unfold mesh_slices. destruct (String.eqb_spec name "Cylinder"); [contradiction|]. rewrite scale_faces_seq, map_map. cbn [fUVs set_uvs].
          assert (LU : length faces = length uvs) by (pose proof (mesh_uvs_length name) as Q; unfold mesh_faces, mesh_uvs in Q; rewrite EB in Q; exact Q). rewrite <- (G4 LU), !map_map.
          apply map_ext_in. intros f Hf. unfold scaled_face. rewrite Forall_forall in G3. rewrite (G3 f Hf), (uv_scale_in _ _ _ _ N1 N2 Ik).
          rewrite (map_ext (tiled (tiling load (rGUID r))) (fun uv => match snd (make_material load (rGUID r)) with Some s => scale_uv s uv | None => uv end)) by (intros uv; symmetry; apply make_tiling).
          destruct (snd (make_material load (rGUID r))); [reflexivity|]. symmetry. apply map_id. }
    destruct (goLight o); (split; [reflexivity|]); (split; [exact B|]); split; reflexivity.
  - destruct (import mesh ks (oDepth obj + 1)%Z tr (S (length (uObjs st))) (length ms)) as [[os ms']|] eqn:EI.
    + injection H as <- <- <-. cbn [uMats uCache uObjs uBodies]. assert (X2 : extends ms (ms ++ ms')) by (eexists; reflexivity). split; [|split; [eapply extends_trans; eassumption|]].
      { destruct C1 as (N1 & N2 & FC). split; [exact N1|]. split; [exact N2|]. eapply Forall_impl; [|exact FC]. intros e [Q1 Q2]. split; [eapply extends_nth; eassumption|exact Q2]. }
      split; [reflexivity|]. split; [split; reflexivity|]. intros sc i Hi int. eexists o, (if goLight o then _ else _), _. split; [exact Hi|]. split; [destruct (goLight o); reflexivity|]. split; [destruct (goLight o); reflexivity|]. split; [destruct (goLight o); reflexivity|].
      split; [intros t' cs' E; rewrite Ht in E; injection E as <- <-; destruct (goLight o); apply L; reflexivity|]. rewrite M, EN. split; [destruct (goLight o); reflexivity|]. split; [destruct (goLight o); reflexivity|]. split; [destruct (goLight o); reflexivity|].
      right. split; [destruct (goLight o); reflexivity|]. exists ks, tr, (length ms), os, ms'. split; [rewrite <- EI, Hn; destruct (goLight o); reflexivity|]. split; [exact F|]. split.
      * destruct C1 as (_ & _ & FC). rewrite Forall_forall in FC. clear - I1 FC X2. induction I1 as [|r k rs ks Ik I1 IH]; constructor; [|exact IH]. destruct (FC _ Ik) as [Q _]. eexists. split; [eapply extends_nth; [exact X2|exact Q]|apply make_shows].
      * set (os' := match os with [x] => [set_internal x (Some tr)] | _ => os end).
        assert (G : forall l l', Forall2 (fun y z : object R => oUID z = oUID y /\ oDepth z = oDepth y /\ oName z = oName y /\ oVerts z = oVerts y /\ oFaces z = oFaces y) l l' ->
          Forall2 (fun y z => oUID z = oUID y /\ oDepth z = oDepth y /\ oName z = oName y /\ oVerts z = oVerts y /\ map (@fVerts R) (oFaces z) = map (@fVerts R) (oFaces y) /\ oVisible z = act && negb (en =? 0)%Z) l
            (map (fun x => set_head (set_faces x (scale_faces c (seq 0 (length (oFaces x))) (oFaces x))) (oUID x) (oDepth x) (act && negb (en =? 0)%Z)) l')).
        { intros l l' H. induction H as [|y z l l' (A1 & A2 & A3 & A4 & A5) H IH]; [constructor|]. cbn [map]. constructor; [|exact IH]. cbn [oUID oDepth oName oVerts oFaces oVisible set_head set_faces].
          do 4 (split; [assumption|]). split; [|reflexivity]. rewrite A5. apply scale_faces_verts. apply seq_length. }
        apply G. unfold os'. assert (Id : forall l : list (object R), Forall2 (fun y z : object R => oUID z = oUID y /\ oDepth z = oDepth y /\ oName z = oName y /\ oVerts z = oVerts y /\ oFaces z = oFaces y) l l) by (induction l; constructor; [repeat split; reflexivity|assumption]).
        destruct os as [|a [|b os]]; [constructor|constructor; [repeat split; reflexivity|constructor]|apply Id].
    + injection H as <- <- <-. cbn [uMats uCache uObjs uBodies uLights]. split; [exact C1|]. split; [exact X1|]. split; [reflexivity|]. split; [split; reflexivity|]. intros sc i Hi int. exists o, (if goLight o then set_internal obj int else obj), []. split; [exact Hi|]. split; [reflexivity|].
      split; [destruct (goLight o); reflexivity|]. split; [destruct (goLight o); reflexivity|]. split; [intros t' cs' E; rewrite Ht in E; injection E as <- <-; destruct (goLight o); apply L; reflexivity|]. rewrite M, EN.
      split; [destruct (goLight o); reflexivity|]. split; [destruct (goLight o); reflexivity|]. split; [destruct (goLight o); reflexivity|]. left. split; [destruct (goLight o); reflexivity|reflexivity].
Qed.

(** ** The whole scene *)
Definition make_bodies (scale : R) (on : bool) (o : gobj) (m : mat4 R) (x : object R) : list ubody := if on then convert_body scale o m x else [].
Lemma bodies_app scale sc make vs oss bss vs' oss' bss' : bodies scale sc make vs oss bss -> bodies scale sc make vs' oss' bss' -> bodies scale sc make (vs ++ vs') (oss ++ oss') (bss ++ bss').
Proof. intros H H'. induction H; cbn [app]; [exact H'|eapply bodies_none; eassumption|eapply bodies_some; eassumption]. Qed.
Lemma lit_app scale sc vs oss lss vs' oss' lss' : lit scale sc vs oss lss -> lit scale sc vs' oss' lss' -> lit scale sc (vs ++ vs') (oss ++ oss') (lss ++ lss').
Proof. intros H H'. induction H; cbn [app]; [exact H'|eapply lit_cons; eassumption]. Qed.
Definition grows scale load import on sc n (st st' : ust) (vs : list visit) : Prop :=
  cache_ok load (uMats st') (uCache st') /\ extends (uMats st) (uMats st') /\ exists oss bss lss,
    uObjs st' = uObjs st ++ concat oss /\ uBodies st' = uBodies st ++ concat bss /\ blocks scale load import sc (uMats st') n vs oss /\ bodies scale sc (make_bodies scale on) vs oss bss /\
    uLights st' = uLights st ++ concat lss /\ lit scale sc vs oss lss.
Lemma grows_trans scale load import on sc st1 st2 st3 vs vs' : grows scale load import on sc (length (uObjs st1)) st1 st2 vs -> grows scale load import on sc (length (uObjs st2)) st2 st3 vs' -> grows scale load import on sc (length (uObjs st1)) st1 st3 (vs ++ vs').
Proof.
  intros (_ & X1 & oss & bss & lss & A1 & A2 & A3 & A4 & A5 & A6) (C & X2 & oss' & bss' & lss' & B1 & B2 & B3 & B4 & B5 & B6). split; [exact C|]. split; [eapply extends_trans; eassumption|]. exists (oss ++ oss'), (bss ++ bss'), (lss ++ lss'). rewrite !concat_app, !app_assoc, <- A1, <- A2, <- A5.
  split; [exact B1|]. split; [exact B2|]. split; [|split; [apply bodies_app; assumption|split; [exact B5|apply lit_app; assumption]]]. apply blocks_app; [eapply blocks_extends; eassumption|]. rewrite A1, app_length in B3. exact B3.
Qed.
Lemma grows_refl scale load import on sc st : cache_ok load (uMats st) (uCache st) -> grows scale load import on sc (length (uObjs st)) st st [].
Proof. intros C. split; [exact C|]. split; [apply extends_refl|]. exists [], [], []. cbn. rewrite !app_nil_r. repeat split; constructor. Qed.
Lemma convert_object_ok scale load import on sc : forall fuel i d parent act st st' path, cache_ok load (uMats st) (uCache st) -> affine parent -> follows scale path parent -> d = length path ->
  convert_object scale on load import fuel sc i (Z.of_nat d) parent act st = Some st' -> exists vs, walk sc path act i vs /\ grows scale load import on sc (length (uObjs st)) st st' vs.
Proof.
  induction fuel as [|f IH]; intros i d parent act st st' path C Af F Hd H; cbn [convert_object] in H; [discriminate|]. destruct (nth_error sc i) as [o|] eqn:En; [|discriminate]. cbv zeta in H. set (act' := act && negb (goActive o =? 0)%Z) in *.
  destruct (goTr o) as [[t cs]|] eqn:Et.
  - set (tr := mat_mul parent (get_matrix t)) in *. destruct (convert_mesh load import st o _ tr act') as [[st1 x] added] eqn:EM.
    assert (Af' : affine tr) by (apply affine_mul; [exact Af|apply get_matrix_affine]). assert (F' : follows scale (path ++ [t]) tr) by (apply follows_child; exact F).
    destruct (convert_mesh_ok scale load import st o t cs tr act' path (length (uObjs st)) d st1 x added C Et eq_refl F' EM) as (C1 & X1 & O1 & (B1 & Li1) & Bl).
    set (x' := if goLight o then set_internal x (Some tr) else x) in *. set (st2 := mkU (uObjs st1 ++ x' :: added) (uMats st1) (uCache st1) (uBodies st1 ++ (if on then convert_body scale o tr x' else [])) (uLights st1 ++ goLight o :: map (fun _ => None) added)) in *.
    assert (G1 : grows scale load import on sc (length (uObjs st)) st st2 [mkVisit i (path ++ [t]) d act']).
    { split; [exact C1|]. split; [exact X1|]. exists [x' :: added], [make_bodies scale on o tr x'], [goLight o :: map (fun _ => None) added]. cbn [concat]. rewrite !app_nil_r. unfold st2. cbn [uObjs uMats uBodies uLights]. rewrite O1, B1, Li1. split; [reflexivity|]. split; [reflexivity|]. split.
      - constructor; [apply Bl; exact En|constructor].
      - split; [eapply bodies_some; [exact En|rewrite Et; discriminate|exact Af'|exact F'|constructor]|]. split; [reflexivity|].
        eapply lit_cons; [exact En| |apply map_length| |constructor].
        + unfold lit_by. rewrite Et. unfold x'. destruct (goLight o) as [u|]; [|reflexivity]. split; [reflexivity|]. exists tr. split; [reflexivity|]. split; [exact Af'|exact F'].
        + apply Forall_forall. intros y Hy. apply in_map_iff in Hy as (z & <- & _). reflexivity. }
    assert (G2 : forall l s s', cache_ok load (uMats s) (uCache s) -> fold_left (fun r c => match r, c with Some st, Some j => convert_object scale on load import f sc j (Z.of_nat d + 1) tr act' st | r, _ => r end) l (Some s) = Some s' ->
      exists vs, walks sc (path ++ [t]) act' l vs /\ grows scale load import on sc (length (uObjs s)) s s' vs).
    { induction l as [|c l IHl]; intros s s' Cs Hs; cbn [fold_left] in Hs.
      - injection Hs as <-. exists []. split; [constructor|apply grows_refl; exact Cs].
      - destruct c as [j|].
        + destruct (convert_object scale on load import f sc j (Z.of_nat d + 1) tr act' s) as [s1|] eqn:Ej.
          * replace (Z.of_nat d + 1)%Z with (Z.of_nat (S d)) in Ej by lia. destruct (IH j (S d) tr act' s s1 (path ++ [t]) Cs Af' F' ltac:(rewrite app_length; cbn; lia) Ej) as (vs & W & G). destruct (IHl s1 s' (proj1 G) Hs) as (vs' & W' & G'). exists (vs ++ vs'). split; [constructor; assumption|eapply grows_trans; eassumption].
          * exfalso. clear - Hs. induction l as [|c l IHl]; cbn [fold_left] in Hs; [discriminate|]. apply IHl. destruct c; exact Hs.
        + destruct (IHl s s' Cs Hs) as (vs & W & G). exists vs. split; [constructor; exact W|exact G]. }
    destruct (G2 cs st2 st' C1 H) as (vs & W & G). exists (mkVisit i (path ++ [t]) d act' :: vs). split; [rewrite Hd; eapply walk_node; eassumption|]. exact (grows_trans _ _ _ _ _ _ _ _ _ _ G1 G).
  - injection H as <-. exists [mkVisit i path d act']. split; [rewrite Hd; eapply walk_leaf; eassumption|]. split; [exact C|]. split; [apply extends_refl|]. eexists [[_]], [[]], [[None]]. cbn [concat uObjs uBodies uMats uLights app]. rewrite !app_nil_r. split; [reflexivity|]. split; [reflexivity|]. split.
    + constructor; [|constructor]. exists o. eexists _, []. split; [exact En|]. split; [reflexivity|]. split; [reflexivity|]. split; [reflexivity|]. split; [intros t cs E; rewrite Et in E; discriminate|]. unfold mesh_of. rewrite Et. repeat split; reflexivity.
    + split; [eapply bodies_none; [exact En|exact Et|constructor]|]. split; [reflexivity|]. eapply lit_cons; [exact En|unfold lit_by; rewrite Et; reflexivity|reflexivity|constructor|constructor].
Qed.
Theorem convert_ok scale load import on sc fuel roots st : convert scale on load import fuel sc roots = Some st -> exists vs oss bss,
  walks sc [] true (map Some roots) vs /\ uObjs st = concat oss /\ uBodies st = concat bss /\ blocks scale load import sc (uMats st) 0 vs oss /\ bodies scale sc (make_bodies scale on) vs oss bss /\
  exists lss, uLights st = concat lss /\ lit scale sc vs oss lss.
Proof.
  unfold convert. intros H. destruct (fold_left _ roots _) as [s|] eqn:E; [|discriminate]. assert (G : forall l s0 s1, cache_ok load (uMats s0) (uCache s0) ->
    fold_left (fun r i => match r with Some st => convert_object scale on load import fuel sc i 0 (mat_scale scale scale scale) true st | None => None end) l (Some s0) = Some s1 ->
    exists vs, walks sc [] true (map Some l) vs /\ grows scale load import on sc (length (uObjs s0)) s0 s1 vs).
  { induction l as [|i l IH]; intros s0 s1 C Hs; cbn [fold_left map] in *.
    - injection Hs as <-. exists []. split; [constructor|apply grows_refl; exact C].
    - destruct (convert_object scale on load import fuel sc i 0 (mat_scale scale scale scale) true s0) as [s2|] eqn:Ei.
      + destruct (convert_object_ok scale load import on sc fuel i 0%nat _ true s0 s2 [] C (mat_scale_affine _ _ _) (follows_root scale) eq_refl Ei) as (vs & W & G). destruct (IH s2 s1 (proj1 G) Hs) as (vs' & W' & G'). exists (vs ++ vs'). split; [constructor; assumption|eapply grows_trans; eassumption].
      + exfalso. clear - Hs. induction l as [|c l IHl]; cbn [fold_left] in Hs; [discriminate|]. exact (IHl Hs). }
  destruct (G roots (mkU [] [] [] [] []) s) as (vs & W & C & X & oss & bss & lss & A1 & A2 & A3 & A4 & A5 & A6); [repeat split; constructor|exact E|]. cbn [uObjs uBodies uLights app length] in *. exists vs, oss, bss. split; [exact W|].
  assert (S : uObjs st = uObjs s /\ uBodies st = uBodies s /\ uLights st = uLights s /\ extends (uMats s) (uMats st)).
  { injection H as <-. destruct (uMats s) eqn:Em; cbn [uObjs uBodies uMats uLights]; (split; [reflexivity|]); (split; [reflexivity|]); (split; [reflexivity|]); [eexists; reflexivity|rewrite Em; apply extends_refl]. }
  destruct S as (S1 & S2 & S4 & S3). rewrite S1, S2, S4. split; [exact A1|]. split; [exact A2|]. split; [eapply blocks_extends; eassumption|]. split; [exact A4|]. exists lss. split; [exact A5|exact A6].
Qed.

(** Ids are positions, if those of imported objects are. *)
Definition imports_numbered (import : uref -> list nat -> Z -> mat4 R -> nat -> nat -> option (list (object R) * list (material R))) : Prop :=
  forall r ks d m n k ys ms, import r ks d m n k = Some (ys, ms) -> map (@oUID R) ys = map Z.of_nat (seq (S n) (length ys)).
Lemma block_ids scale load import sc mats n v os : imports_numbered import -> block scale load import sc mats n v os -> map (@oUID R) os = map Z.of_nat (seq (S n) (length os)).
Proof.
  intros I (o & x & added & _ & -> & U & _ & _ & M). cbn [map length seq]. rewrite U. f_equal. destruct (mesh_of o) as [[[m en] refs]|]; [|destruct M as (_ & _ & _ & _ & ->); reflexivity]. destruct (mesh_name m) as [name|]; [destruct M as (_ & _ & _ & ->); reflexivity|].
  destruct M as (_ & _ & _ & [(_ & ->)|(_ & ks & tr & k & ys & ms & Ei & _ & _ & F)]); [reflexivity|]. apply I in Ei. assert (L : length ys = length added /\ map (@oUID R) added = map (@oUID R) ys).
  { clear - F. induction F as [|y z ys zs (A & _) F (IH1 & IH2)]; [split; reflexivity|]. cbn. rewrite A, IH1, IH2. split; reflexivity. }
  destruct L as [L1 L2]. rewrite L2, Ei, L1. reflexivity.
Qed.
Lemma blocks_ids scale load import sc mats n vs oss : imports_numbered import -> blocks scale load import sc mats n vs oss -> map (@oUID R) (concat oss) = map Z.of_nat (seq (S n) (length (concat oss))).
Proof.
  intros I H. induction H as [n|n v vs os oss B H IH]; [reflexivity|]. cbn [concat]. rewrite map_app, app_length, seq_app, map_app, (block_ids _ _ _ _ _ _ _ _ I B), IH. reflexivity.
Qed.
(** The conversion ends. *)
Lemma convert_object_total scale load import on sc rank : forest sc rank -> forall fuel i d parent act st, (rank i < fuel)%nat -> (i < length sc)%nat -> exists st', convert_object scale on load import fuel sc i d parent act st = Some st'.
Proof.
  intros Fo. induction fuel as [|f IH]; intros i d parent act st L Li; [lia|]. cbn [convert_object]. destruct (nth_error sc i) as [o|] eqn:En; [|apply nth_error_None in En; lia]. cbv zeta. destruct (goTr o) as [[t cs]|] eqn:Et; [|eauto].
  destruct (convert_mesh load import st o _ _ _) as [[st1 x] added]. generalize (mkU (uObjs st1 ++ (if goLight o then set_internal x (Some (mat_mul parent (get_matrix t))) else x) :: added) (uMats st1) (uCache st1)
    (uBodies st1 ++ (if on then convert_body scale o (mat_mul parent (get_matrix t)) (if goLight o then set_internal x (Some (mat_mul parent (get_matrix t))) else x) else [])) (uLights st1 ++ goLight o :: map (fun _ => None) added)).
  assert (In1 : forall c, In c cs -> match c with Some j => (rank j < f)%nat /\ (j < length sc)%nat | None => True end). { intros [j|] Hc; [|exact I]. destruct (Fo i o t cs j En Et Hc). lia. }
  clear Et. induction cs as [|c cs IHc]; intros s; cbn [fold_left]; [eauto|]. specialize (IHc (fun c' H => In1 c' (or_intror H))). destruct c as [j|]; [|apply IHc]. destruct (In1 (Some j) (or_introl eq_refl)) as [A B]. destruct (IH j (d + 1)%Z (mat_mul parent (get_matrix t)) (act && negb (goActive o =? 0)%Z) s A B) as (s' & ->). apply IHc.
Qed.
Theorem convert_total scale load import on sc rank fuel roots : forest sc rank -> (forall i, In i roots -> (i < length sc)%nat /\ (rank i < fuel)%nat) -> exists st, convert scale on load import fuel sc roots = Some st.
Proof.
  intros Fo Hr. unfold convert. assert (G : forall l s, (forall i, In i l -> (i < length sc)%nat /\ (rank i < fuel)%nat) -> exists s', fold_left (fun r i => match r with Some st => convert_object scale on load import fuel sc i 0 (mat_scale scale scale scale) true st | None => None end) l (Some s) = Some s').
  { induction l as [|i l IH]; intros s Hl; cbn [fold_left]; [eauto|]. destruct (Hl i (or_introl eq_refl)) as [A B]. destruct (convert_object_total scale load import on sc rank Fo fuel i 0%Z (mat_scale scale scale scale) true s B A) as (s' & ->). apply IH. intros j Hj. apply Hl. right. exact Hj. }
  destruct (G roots (mkU [] [] [] [] []) Hr) as (s & ->). eauto.
Qed.
