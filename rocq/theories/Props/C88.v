(** C88: meshes of a Unity scene have their materials, and textures repeat as they say. *)
From Coq Require Import String List ZArith Reals Lra Lia Bool.
From Verif.Model Require Import Num NumR Vec Matrix Euler Mqo MqoDoc MqoTransform Unity UnityShape Unity2Mqo.
From Verif.Spec Require Import GeomSpec UnitySpec SceneSpec.
From Verif.Proofs Require Import MatrixLemmas UnityProofs SceneProofs SceneMore.
Import ListNotations.
Local Open Scope string_scope.
Local Open Scope list_scope.
Local Open Scope R_scope.

(** Every object of the scene that is drawn with a built-in mesh and a material is in the document, its faces have the material of the file, and texture coordinates are scaled by
    its tiling.  Partial: not for cylinders, and only the first material counts. *)
Theorem C88_faces_partial : forall scale load import on sc fuel roots st, convert scale on load import fuel sc roots = Some st ->
  forall vs, walks sc [] true (map Some roots) vs -> forall v o m e r rs name, In v vs -> nth_error sc (vObj v) = Some o -> mesh_of o = Some (m, e, r :: rs) -> mesh_name m = Some name ->
  exists x k mat, In x (uObjs st) /\ map (@fVerts R) (oFaces x) = mesh_faces name /\ Forall (fun f => fMaterial f = Z.of_nat k) (oFaces x) /\ nth_error (uMats st) k = Some mat /\ shows_material load (rGUID r) mat /\
    (name <> "Cylinder" -> map (@fUVs R) (oFaces x) = map (map (tiled (tiling load (rGUID r)))) (mesh_uvs name)).
Proof.
  intros scale load import on sc fuel roots st H vs W v o m e r rs name Hv Ho Hm Hn. destruct (convert_ok scale load import on sc fuel roots st H) as (vs' & oss & _ & W' & E & _ & B & _). rewrite (walks_unique _ _ _ _ _ _ W W') in Hv. clear W W'.
  rewrite E. clear H E. induction B as [n|n w vs1 os oss B1 B IH]; [destruct Hv|]. destruct Hv as [->|Hv].
  - destruct B1 as (o' & x & added & Ho' & -> & _ & _ & _ & M). rewrite Ho in Ho'. injection Ho' as <-. rewrite Hm, Hn in M. destruct M as (_ & (_ & F & MM) & _). destruct (MM r rs eq_refl) as (k & mat & A1 & A2 & A3 & A4). exists x, k, mat. split; [left; reflexivity|]. auto.
  - destruct (IH Hv) as (x & k & mat & A1 & A2). exists x, k, mat. split; [cbn [concat]; apply in_or_app; right; exact A1|exact A2].
Qed.
Print Assumptions C88_faces_partial.
(** Without imported meshes the materials of the document are those of different files, one for each (or the dummy). *)
Theorem C88_once : forall scale load on sc fuel roots st, convert scale on load no_import fuel sc roots = Some st ->
  exists guids, NoDup guids /\ (Forall2 (shows_material load) guids (uMats st) \/ guids = [] /\ length (uMats st) = 1%nat).
Proof. exact convert_listed. Qed.
Print Assumptions C88_once.

Definition builtin (n : Z) : uref := mkRef n "0000000000000000e000000000000000" 0.
Definition thing (mesh : Z) (refs : list uref) : gobj := mkGO "thing" 1 (Some (mkTr (mkV3 0 0 0) (mkV4 0 0 0 1) (mkV3 1 1 1) None, [])) (Some (Some (builtin mesh))) (Some (1%Z, refs)) None [] [] [] [] None.
(** A file with a texture that is repeated 1 x 2 times. *)
Definition tiles (ofs : vec2 R) (guid : string) : option umat := if String.eqb guid "tiles" then Some (mkUMat "tiles" None None (Some ("tiles.png", mkV2 1 2, ofs)) "") else None.

(** Refuted: the two ends of a cylinder share their texture coordinates, so they are scaled twice. *)
Theorem C88_cylinder_refuted : exists st x f uv, convert_mesh (tiles (mkV2 0 0)) no_import (mkU [] [] [] [] []) (thing 10206 [mkRef 1 "tiles" 2]) (new_obj "pillar") mat_id true = (st, x, []) /\
  nth_error (oFaces x) 32 = Some f /\ nth_error (fUVs f) 0 = Some uv /\ v2y uv = 4 /\ exists uv0, option_map (hd (mkV2 7 7)) (nth_error (mesh_uvs "Cylinder") 32) = Some uv0 /\ v2y (tiled (mkV2 1 2) uv0) = 2.
Proof.
  set (fs := oFaces (add_geometry (set_name (new_obj "pillar") "pillar(Cylinder)") mat_id 0 (mesh_verts "Cylinder") (mesh_faces "Cylinder") (mesh_uvs "Cylinder"))).
  destruct (add_geometry_faces (set_name (new_obj "pillar") "pillar(Cylinder)") mat_id 0 (mesh_verts "Cylinder") (mesh_faces "Cylinder") (mesh_uvs "Cylinder") eq_refl eq_refl) as (_ & G2 & G3 & G4). fold fs in G2, G3, G4. specialize (G4 (mesh_uvs_length _)).
  assert (L : length fs = 34%nat) by (rewrite <- cylinder_count, <- G2, map_length; reflexivity). destruct (list_end fs 32 L) as (pre & a & b & Ef & Lp).
  assert (C : uv_scale_of [("tiles", 0%nat, Some (mkV2 1 2))] 0 = Some (mkV2 1 2)) by reflexivity. rewrite Forall_forall in G3.
  destruct (scale_faces_shared [("tiles", 0%nat, Some (mkV2 1 2))] pre a b (mkV2 1 2)) with (n := 34%nat) as (pre' & x & y & E1 & E2 & E3); [rewrite (G3 a) by (rewrite Ef; apply in_or_app; right; left; reflexivity); exact C|rewrite (G3 b) by (rewrite Ef; apply in_or_app; right; right; left; reflexivity); exact C|rewrite <- Ef, L; reflexivity|].
  assert (La : fUVs a = map (fun i => mkV2 (fr i 32) (fr 1 1)) (upto 32)).
  { assert (Q : nth_error (map (@fUVs R) fs) 32 = Some (fUVs a)) by (rewrite Ef, map_app, nth_error_app2 by (rewrite map_length; lia); rewrite map_length, Lp; reflexivity). rewrite G4 in Q. unfold mesh_uvs, builtin_mesh in Q. cbn [String.eqb Ascii.eqb Bool.eqb snd] in Q. unfold cylinder_uvs in Q.
    rewrite nth_error_app2 in Q by (unfold side_uvs; rewrite map_length; unfold upto; rewrite map_length, seq_length; cbn; lia). unfold side_uvs, upto in Q. rewrite !map_length, seq_length in Q. cbn [Z.to_nat Pos.to_nat Pos.iter_op Nat.add Nat.sub nth_error] in Q. injection Q as Q. symmetry. exact Q. }
  assert (Lp' : length pre' = 32%nat). { assert (Q : length (pre' ++ [x; y]) = length (pre ++ [a; b])) by (rewrite <- E1; unfold scale_faces; cbv zeta; rewrite map_length, combine_length, <- Ef, L; reflexivity). rewrite !app_length in Q. cbn in Q. lia. }
  eexists _, _, x, (scale_uv (mkV2 1 2) (scale_uv (mkV2 1 2) (mkV2 (fr 0 32) (fr 1 1)))). split; [reflexivity|]. split; [|split; [|split]].
  - change (nth_error (scale_faces [("tiles", 0%nat, Some (mkV2 1 2))] (seq 0 33 ++ [32%nat]) fs) 32 = Some x). rewrite Ef. change (seq 0 33 ++ [32%nat]) with (seq 0 (34 - 1) ++ [(34 - 2)%nat]). rewrite E1, nth_error_app2, Lp' by lia. reflexivity.
  - rewrite E2, La. reflexivity.
  - unfold scale_uv, fr. cbn. field.
  - exists (mkV2 (fr 0 32) (fr 1 1)). split; [reflexivity|]. unfold tiled, fr. cbn. field.
Qed.
Print Assumptions C88_cylinder_refuted.
(** Refuted: a mesh without material gets the material of another object. *)
Theorem C88_none_refuted : exists sc, option_map goRenderer (nth_error sc 1) = Some (Some (1%Z, [])) /\
  option_map (fun st => (map (fun x => map (@fMaterial R) (oFaces x)) (uObjs st), map (@mtName R) (uMats st))) (convert 1 false (tiles (mkV2 0 0)) no_import 1 sc [0; 1]%nat) = Some ([[0%Z]; [0%Z]], ["tiles"]).
Proof. exists [thing 10210 [mkRef 1 "tiles" 2]; thing 10210 []]. split; [reflexivity|]. lazy. reflexivity. Qed.
Print Assumptions C88_none_refuted.
(** Refuted: two materials of one file (embedded in a model) are taken for the same one. *)
Theorem C88_embedded_refuted : exists r r' ms c i j, r <> r' /\ add_materials (fun _ => None) [] [] [r; r'] = (ms, c, [i; j]) /\ i = j.
Proof. exists (mkRef 2100000 "model" 3), (mkRef 2100002 "model" 3). eexists _, _, _, _. split; [discriminate|]. split; reflexivity. Qed.
Print Assumptions C88_embedded_refuted.
(** Refuted: the offset of a texture is ignored. *)
Theorem C88_offset_refuted : exists ofs ofs' : vec2 R, ofs <> ofs' /\ forall import on sc fuel roots, convert 1000 on (tiles ofs) import fuel sc roots = convert 1000 on (tiles ofs') import fuel sc roots.
Proof.
  exists (mkV2 0 0), (mkV2 (1 / 2) 0). split; [intros H; injection H; lra|]. intros import on sc fuel roots. apply convert_same. intros g. unfold make_material, tiles. destruct (String.eqb g "tiles"); reflexivity.
Qed.
Print Assumptions C88_offset_refuted.

(** A quad with tiles. *)
Example C88_example : exists st, convert 1 false (tiles (mkV2 0 0)) no_import 1 [thing 10210 [mkRef 1 "tiles" 2]] [0%nat] = Some st /\ map (fun x => map (@fUVs R) (oFaces x)) (uObjs st) = [[map (tiled (mkV2 1 2)) [mkV2 1 1; mkV2 0 1; mkV2 0 0; mkV2 1 0]]] /\
  mesh_of (thing 10210 [mkRef 1 "tiles" 2]) = Some (builtin 10210, true, [mkRef 1 "tiles" 2]) /\ mesh_name (builtin 10210) = Some "Quad" /\ tiling (tiles (mkV2 0 0)) "tiles" = mkV2 1 2.
Proof. eexists. split; [reflexivity|]. split; [reflexivity|]. split; [reflexivity|]. split; reflexivity. Qed.

(** Which meshes are built in. *)
Theorem C88_builtin : forall r name, mesh_name r = Some name <-> rGUID r = builtin_resources /\ rType r = 0%Z /\ In (rFile r, name) unity_meshes.
Proof.
  intros [f g t] name. unfold mesh_name, mesh_names, ref_eqb. cbn [find fst snd rFile rGUID rType]. fold builtin_resources. split.
  - intros H. repeat match type of H with option_map snd (if ?b then _ else _) = _ => destruct b eqn:E; [|clear E] end; try discriminate H;
      cbn in H; injection H as <-; apply andb_true_iff in E; destruct E as [E E3]; apply andb_true_iff in E; destruct E as [E1 E2];
      apply Z.eqb_eq in E1; apply Z.eqb_eq in E3; apply String.eqb_eq in E2; subst; (split; [reflexivity|]; split; [reflexivity|]); cbn; tauto.
  - intros (-> & -> & H). rewrite String.eqb_refl. cbn in H. repeat (destruct H as [H|H]; [injection H as <- <-; reflexivity|]). destruct H.
Qed.
Print Assumptions C88_builtin.
