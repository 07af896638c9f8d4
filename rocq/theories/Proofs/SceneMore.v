(** Local transforms, textures of cylinders and the list of materials of Unity scenes (C87, C88). *)
From Coq Require Import String List ZArith Reals Lra Lia Bool.
From Verif.Model Require Import Num NumR Vec Matrix Euler Mqo MqoDoc MqoTransform Unity UnityShape Unity2Mqo.
From Verif.Spec Require Import GeomSpec UnitySpec SceneSpec.
From Verif.Proofs Require Import MatrixLemmas UnityProofs UnityMesh MorphProofs EulerProofs RotationProofs SceneProofs.
Import ListNotations.
Local Open Scope list_scope.
Local Open Scope R_scope.

Lemma trs_affine t r s : affine (mat_trs t r s).
Proof. unfold mat_trs. apply affine_mul; [apply mat_translate_affine|apply affine_mul; [apply mat_rot_affine|apply mat_scale_affine]]. Qed.
Lemma get_matrix_trs t : get_matrix t = mat_trs (mirror (tPos t)) (mirrored_turn t) (tScale t).
Proof. unfold get_matrix, mat_trs, mirrored_turn, mirror; mproj; rnum. rewrite mat_mul_assoc. reflexivity. Qed.
Lemma mirrored_unit t : unit_quat (tRot t) -> unit_quat (mirrored_turn t).
Proof. unfold unit_quat, mirrored_turn; mproj. intros <-. ring. Qed.
Lemma trs_scaled t r s k w : unit_quat r -> mat_apply (mat_trs (v3scale t k) r s) (v3scale w k) = v3scale (mat_apply (mat_trs t r s) w) k.
Proof. intros U. rewrite !mat_trs_apply by exact U. destruct t, r, s, w. unfold qapply, v3add, v3scale; mproj; rnum; cbv zeta; mproj. comps; ring. Qed.
Theorem local_chain_ok scale path p : Forall keeps path -> mat_apply (local_chain scale path) (v3scale p scale) = doc_place scale path p.
Proof.
  intros H. assert (A : forall l, affine (local_chain scale l)). { induction l as [|t l IH]; [apply affine_id|]. cbn [local_chain fold_right]. apply affine_mul; [apply trs_affine|exact IH]. }
  induction H as [|t l (U & K) H IH].
  - unfold local_chain, doc_place, place. cbn [fold_right]. rewrite mirror_twice. destruct p. unfold mat_apply, mat_id, v3scale; mproj; rnum. comps; ring.
  - cbn [local_chain fold_right]. fold (local_chain scale l). rewrite mat_apply_mul by apply A. rewrite IH. unfold doc_place at 1. unfold get_local_transform.
    rewrite (mat_trs_rot _ _ (mirrored_turn t)) by (apply same_action_same_matrix; [apply euler_to_quat_unit|apply mirrored_unit; exact U|exact K]). rewrite trs_scaled by (apply mirrored_unit; exact U). rewrite <- get_matrix_trs, get_matrix_mirror. reflexivity.
Qed.

(** ** The ends of a cylinder *)
Lemma scale_slices_app c : forall l l' h, scale_slices c (l ++ l') h = scale_slices c l' (scale_slices c l h).
Proof. induction l as [|[m k] l IH]; intros l' h; [reflexivity|]. cbn [app scale_slices]. apply IH. Qed.
Lemma scale_faces_shared c (fs : list (face R)) a b s : uv_scale_of c (fMaterial a) = Some s -> uv_scale_of c (fMaterial b) = Some s ->
  forall n, n = length (fs ++ [a; b]) -> exists pre x y, scale_faces c (seq 0 (n - 1) ++ [n - 2]%nat) (fs ++ [a; b]) = pre ++ [x; y] /\ fUVs x = map (scale_uv s) (map (scale_uv s) (fUVs a)) /\ fUVs y = map (scale_uv s) (map (scale_uv s) (fUVs a)).
Proof.
  intros Ha Hb n Hn. rewrite app_length in Hn. cbn [length] in Hn. unfold scale_faces. cbv zeta.
  assert (E : scale_slices c (combine (map (@fMaterial R) (fs ++ [a; b])) (seq 0 (n - 1) ++ [(n - 2)%nat])) (map (@fUVs R) (fs ++ [a; b])) = map (scaled_face c) fs ++ [map (scale_uv s) (map (scale_uv s) (fUVs a)); fUVs b]).
  { replace (fs ++ [a; b]) with ((fs ++ [a]) ++ [b]) by (rewrite <- app_assoc; reflexivity). rewrite !map_app.
    assert (Cb : forall (l1 : list Z) (l2 : list nat) x y, length l1 = length l2 -> combine (l1 ++ [x]) (l2 ++ [y]) = combine l1 l2 ++ [(x, y)]) by (induction l1; intros [|q l2] x y L; cbn in L; try lia; cbn; [reflexivity|]; f_equal; apply IHl1; lia).
    cbn [map]. rewrite Cb by (rewrite app_length, map_length, seq_length; cbn; lia). rewrite scale_slices_app.
    assert (P : scale_slices c (combine (map (@fMaterial R) fs ++ [fMaterial a]) (seq 0 (n - 1))) ((map (@fUVs R) fs ++ [fUVs a]) ++ [fUVs b]) = map (scaled_face c) fs ++ [scaled_face c a] ++ [fUVs b]).
    { assert (Tail : forall l h z, (forall m k, In (m, k) l -> (k < length h)%nat) -> scale_slices c l (h ++ [z]) = scale_slices c l h ++ [z]).
      { induction l as [|[m k] l IH]; intros h z B; [reflexivity|]. cbn [scale_slices]. destruct (uv_scale_of c m) as [s'|].
        - assert (U : list_upd (h ++ [z]) k (map (scale_uv s')) = list_upd h k (map (scale_uv s')) ++ [z]).
          { pose proof (B m k (or_introl eq_refl)) as Lk. unfold list_upd. rewrite firstn_app, skipn_app. replace (k - length h)%nat with 0%nat by lia. cbn [firstn skipn]. rewrite app_nil_r, <- app_assoc. f_equal. destruct (skipn k h) eqn:Es; [|reflexivity]. apply (f_equal (@length _)) in Es. rewrite skipn_length in Es. cbn in Es. lia. }
          rewrite U. apply IH. intros m' k' H. rewrite list_upd_length. apply (B m' k'). right. exact H.
        - apply IH. intros m' k' H. apply (B m' k'). right. exact H. }
      rewrite Tail.
      - rewrite app_assoc. f_equal. pose proof (scale_slices_seq c (fs ++ [a]) 0 [] eq_refl) as Q. rewrite !map_app, app_length in Q. cbn [length map app] in Q. replace (n - 1)%nat with (length fs + 1)%nat by lia. exact Q.
      - intros m k H. apply in_combine_r in H. apply in_seq in H. rewrite app_length, map_length. cbn. lia. }
    rewrite P. cbn [scale_slices]. rewrite Hb. unfold list_upd. replace (n - 2)%nat with (length (map (scaled_face c) fs)) by (rewrite map_length; lia). rewrite firstn_app, skipn_app, Nat.sub_diag, firstn_all, skipn_all. cbn [firstn skipn app]. rewrite app_nil_r. unfold scaled_face at 2. rewrite Ha. reflexivity. }
  rewrite E. replace (fs ++ [a; b]) with ((fs ++ [a]) ++ [b]) by (rewrite <- app_assoc; reflexivity). replace (n - 1)%nat with (length fs + 1)%nat by lia. rewrite seq_app. cbn [seq Nat.add]. replace (n - 2)%nat with (length fs) by lia.
  assert (Cb : forall {A B} (l1 : list A) (l2 : list B) x y, length l1 = length l2 -> combine (l1 ++ [x]) (l2 ++ [y]) = combine l1 l2 ++ [(x, y)]) by (intros A B; induction l1; intros [|q l2] x y L; cbn in L; try lia; cbn; [reflexivity|]; f_equal; apply IHl1; lia).
  rewrite Cb by (rewrite !app_length, seq_length; reflexivity). rewrite Cb by (rewrite seq_length; reflexivity). rewrite !map_app. cbn [map fst snd]. rewrite nth_error_app2, map_length, Nat.sub_diag by (rewrite map_length; lia). cbn [nth_error].
  eexists _, _, _. split; [rewrite <- app_assoc; cbn [app]; reflexivity|]. split; reflexivity.
Qed.

(** ** All materials, without imported meshes *)
Definition no_import : uref -> list nat -> Z -> mat4 R -> nat -> nat -> option (list (object R) * list (material R)) := fun _ _ _ _ _ _ => None.
Definition listed (load : string -> option umat) (ms : list (material R)) (c : list cached) : Prop :=
  NoDup (map (fun e : cached => fst (fst e)) c) /\ ms = map (fun e : cached => fst (make_material load (fst (fst e)))) c.
Lemma add_material_listed load ms c r ms' c' i : listed load ms c -> add_material load ms c r = (ms', c', i) -> listed load ms' c'.
Proof.
  intros (N & E) H. unfold add_material in H. destruct (cache_find c (rGUID r)) as [[j s]|] eqn:F; [injection H as <- <- <-; split; assumption|]. apply cache_find_none in F. destruct (make_material load (rGUID r)) as [m s] eqn:M. injection H as <- <- <-.
  split; rewrite map_app; [apply NoDup_snoc; assumption|]. cbn [map fst]. rewrite M, <- E. reflexivity.
Qed.
Lemma add_materials_listed load : forall rs ms c ms' c' ks, listed load ms c -> add_materials load ms c rs = (ms', c', ks) -> listed load ms' c'.
Proof.
  induction rs as [|r rs IH]; intros ms c ms' c' ks L H; cbn [add_materials] in H; [injection H as <- <- <-; exact L|]. destruct (add_material load ms c r) as [[ms1 c1] i] eqn:E1. destruct (add_materials load ms1 c1 rs) as [[ms2 c2] is] eqn:E2. injection H as <- <- <-. eapply IH; [|exact E2]. eapply add_material_listed; eassumption.
Qed.
Lemma convert_mesh_listed load st o obj tr act st' x added : listed load (uMats st) (uCache st) -> convert_mesh load no_import st o obj tr act = (st', x, added) -> listed load (uMats st') (uCache st').
Proof.
  intros L H. unfold convert_mesh in H. destruct (goFilter o) as [[m|]|]; try (injection H as <- <- <-; exact L). destruct (goRenderer o) as [[en refs]|]; [|injection H as <- <- <-; exact L]. destruct (ref_valid (Some m)); [|injection H as <- <- <-; exact L].
  destruct (add_materials load (uMats st) (uCache st) refs) as [[ms c] ks] eqn:E. apply (add_materials_listed _ _ _ _ _ _ _ L) in E. destruct (mesh_name m) as [name|].
  - destruct (builtin_mesh name) as [[vs fs] uvs]. injection H as <- <- <-. exact E.
  - cbn [no_import] in H. injection H as <- <- <-. exact E.
Qed.
Lemma convert_object_listed scale load on sc : forall fuel i d parent act st st', listed load (uMats st) (uCache st) -> convert_object scale on load no_import fuel sc i d parent act st = Some st' -> listed load (uMats st') (uCache st').
Proof.
  induction fuel as [|f IH]; intros i d parent act st st' L H; cbn [convert_object] in H; [discriminate|]. destruct (nth_error sc i) as [o|]; [|discriminate]. cbv zeta in H. destruct (goTr o) as [[t cs]|]; [|injection H as <-; exact L].
  destruct (convert_mesh load no_import st o _ _ _) as [[st1 x] added] eqn:E. apply convert_mesh_listed in E; [|exact L]. revert H. match goal with |- fold_left _ _ (Some ?s) = _ -> _ => assert (Ls : listed load (uMats s) (uCache s)) by exact E; revert Ls; generalize s end.
  induction cs as [|c cs IHc]; intros s Ls H; cbn [fold_left] in H; [injection H as <-; exact Ls|]. destruct c as [j|]; [|exact (IHc s Ls H)]. destruct (convert_object scale on load no_import f sc j _ _ _ s) as [s1|] eqn:Ej.
  - apply (IHc s1); [|exact H]. eapply IH; eassumption.
  - exfalso. clear - H. induction cs as [|c l IHl]; cbn [fold_left] in H; [discriminate|]. apply IHl. destruct c; exact H.
Qed.
Theorem convert_listed scale load on sc fuel roots st : convert scale on load no_import fuel sc roots = Some st ->
  exists guids, NoDup guids /\ (Forall2 (shows_material load) guids (uMats st) \/ guids = [] /\ length (uMats st) = 1%nat).
Proof.
  unfold convert. intros H. destruct (fold_left _ roots _) as [s|] eqn:E; [|discriminate]. assert (G : forall l s0 s1, listed load (uMats s0) (uCache s0) ->
    fold_left (fun r i => match r with Some st => convert_object scale on load no_import fuel sc i 0 (mat_scale scale scale scale) true st | None => None end) l (Some s0) = Some s1 -> listed load (uMats s1) (uCache s1)).
  { induction l as [|i l IH]; intros s0 s1 L Hs; cbn [fold_left] in Hs; [injection Hs as <-; exact L|]. destruct (convert_object scale on load no_import fuel sc i 0 _ true s0) as [s2|] eqn:Ei.
    - apply (IH s2 s1); [|exact Hs]. eapply convert_object_listed; eassumption.
    - exfalso. clear - Hs. induction l as [|c l IHl]; cbn [fold_left] in Hs; [discriminate|]. exact (IHl Hs). }
  apply G in E as [N E]; [|split; [constructor|reflexivity]]. exists (map (fun e : cached => fst (fst e)) (uCache s)). split; [exact N|]. injection H as <-. destruct (uMats s) as [|m ms] eqn:Em.
  - right. destruct (uCache s); [split; reflexivity|discriminate E].
  - left. rewrite Em, E. generalize (uCache s). induction l as [|e l IH]; cbn [map]; constructor; [apply make_shows|exact IH].
Qed.

(** The way through a scene is unique. *)
Scheme walk_mut := Induction for walk Sort Prop with walks_mut := Induction for walks Sort Prop.
Lemma walks_unique sc : forall path act cs vs vs', walks sc path act cs vs -> walks sc path act cs vs' -> vs = vs'.
Proof.
  intros path act cs vs vs' H. revert vs'. refine (walks_mut sc (fun path act i vs _ => forall vs', walk sc path act i vs' -> vs = vs') (fun path act cs vs _ => forall vs', walks sc path act cs vs' -> vs = vs') _ _ _ _ _ path act cs vs H).
  - intros p a i o E1 E2 vs' W. inversion W as [? ? ? o' F1 F2|? ? ? o' t cs' ws F1 F2 F3]; subst; rewrite E1 in F1; injection F1 as <-; [reflexivity|]. rewrite E2 in F2. discriminate.
  - intros p a i o t cs0 ws E1 E2 W0 IH vs' W. inversion W as [? ? ? o' F1 F2|? ? ? o' t' cs' ws' F1 F2 F3]; subst; rewrite E1 in F1; injection F1 as <-; rewrite E2 in F2; [discriminate|]. injection F2 as <- <-. rewrite (IH _ F3). reflexivity.
  - intros p a vs' W. inversion W. reflexivity.
  - intros p a cs0 ws W0 IH vs' W. inversion W; subst. apply IH. assumption.
  - intros p a i cs0 ws ws' W1 IH1 W2 IH2 vs' W. inversion W; subst. f_equal; [apply IH1|apply IH2]; assumption.
Qed.
Lemma list_end {A} (l : list A) n : length l = S (S n) -> exists pre a b, l = pre ++ [a; b] /\ length pre = n.
Proof.
  intros H. exists (firstn n l). destruct (skipn n l) as [|a [|b [|c r]]] eqn:E; try (apply (f_equal (@length A)) in E; rewrite skipn_length in E; cbn in E; lia). exists a, b. split; [rewrite <- E; symmetry; apply firstn_skipn|]. rewrite firstn_length. lia.
Qed.
(** Only what becomes of a material file matters. *)
Lemma add_materials_same load load' : (forall g, make_material load g = make_material load' g) -> forall rs ms c, add_materials load ms c rs = add_materials load' ms c rs.
Proof.
  intros E. induction rs as [|r rs IH]; intros ms c; cbn [add_materials]; [reflexivity|]. unfold add_material. rewrite E. destruct (cache_find c (rGUID r)) as [[i s]|]; [rewrite IH; reflexivity|]. destruct (make_material load' (rGUID r)) as [m s]. rewrite IH. reflexivity.
Qed.
Lemma convert_object_same load load' scale on import sc : (forall g, make_material load g = make_material load' g) -> forall fuel i d p a st, convert_object scale on load import fuel sc i d p a st = convert_object scale on load' import fuel sc i d p a st.
Proof.
  intros E. induction fuel as [|f IH]; intros i d p a st; cbn [convert_object]; [reflexivity|]. destruct (nth_error sc i) as [o|]; [|reflexivity]. destruct (goTr o) as [[t cs]|]; [|reflexivity]. cbv zeta.
  assert (M : forall obj tr act, convert_mesh load import st o obj tr act = convert_mesh load' import st o obj tr act) by (intros; unfold convert_mesh; destruct (goFilter o) as [[m|]|]; [|reflexivity|reflexivity]; destruct (goRenderer o) as [[en refs]|]; [|reflexivity]; rewrite (add_materials_same load load' E); reflexivity).
  rewrite M. destruct (convert_mesh load' import st o _ _ _) as [[st1 x] added]. match goal with |- fold_left _ _ ?s = _ => generalize s end. induction cs as [|c cs IHc]; intros s; cbn [fold_left]; [reflexivity|]. destruct s as [s|]; [|apply IHc]. destruct c as [j|]; [|apply IHc]. rewrite IH. apply IHc.
Qed.
Lemma convert_same load load' scale on import fuel sc roots : (forall g, make_material load g = make_material load' g) -> convert scale on load import fuel sc roots = convert scale on load' import fuel sc roots.
Proof.
  intros E. unfold convert. assert (G : forall l s, fold_left (fun r i => match r with Some st => convert_object scale on load import fuel sc i 0 (mat_scale scale scale scale) true st | None => None end) l s = fold_left (fun r i => match r with Some st => convert_object scale on load' import fuel sc i 0 (mat_scale scale scale scale) true st | None => None end) l s).
  { induction l as [|i l IH]; intros s; cbn [fold_left]; [reflexivity|]. destruct s as [s|]; [|apply IH]. rewrite (convert_object_same load load') by exact E. apply IH. }
  rewrite G. reflexivity.
Qed.
