(** C111: objects of an FBX file are connected as the file says. *)
From Coq Require Import String Ascii List ZArith Bool Lia Sorted.
From Verif.Model Require Import Num Vec Matrix Mqo MqoDoc Codec Fbx FbxDoc Fbx2Mqo FbxRead.
From Verif.Spec Require Import FbxReadSpec.
From Verif.Proofs Require Import FbxReadProofs.
Import ListNotations.
Local Open Scope string_scope.
Local Open Scope list_scope.
Local Open Scope Z_scope.

(** The claim without restrictions: the references of a document are those of the file. *)
Definition C111_full : Prop := forall (T : Type) (N : Num T) f32 f64 of_int local_of root,
  links (kids_at (top root "Objects")) (version root =? 6100) (kids_at (top root "Connections")) (fdConns (read_doc f32 f64 of_int local_of root)).

(** Files whose objects have different numbers, or different names in version 6100. *)
Theorem C111_links_partial : forall (T : Type) (N : Num T) f32 f64 of_int local_of root objs conns,
  kids_at (top root "Objects") = objs -> kids_at (top root "Connections") = conns ->
  (version root <> 6100 /\ numbers_ok objs conns -> links objs false conns (fdConns (read_doc f32 f64 of_int local_of root))) /\
  (version root = 6100 /\ names_ok objs conns -> links objs true conns (fdConns (read_doc f32 f64 of_int local_of root))).
Proof. exact read_links. Qed.
Print Assumptions C111_links_partial.
(** Every object is of the type of its node, and the materials of the document are its materials in their order, in any file. *)
Theorem C111_types : forall (T : Type) (N : Num T) f32 f64 of_int local_of root i m, nth_error (kids_at (top root "Objects")) i = Some m ->
  let d := read_doc f32 f64 of_int local_of root in
  (is_model d (S i) = true <-> node_name m = byt "Model") /\ (is_geom d (S i) = true <-> node_name m = byt "Geometry") /\
  (is_mat d (S i) = true <-> node_name m = byt "Material") /\ (is_def d (S i) = true <-> node_name m = byt "Deformer") /\
  (node_name m = byt "Texture" -> is_texture d (S i) = true).
Proof. exact @read_types. Qed.
Print Assumptions C111_types.
Theorem C111_materials : forall (T : Type) (N : Num T) f32 f64 of_int local_of root, let d := read_doc f32 f64 of_int local_of root in
  StronglySorted lt (fdMats d) /\ (forall o, In o (fdMats d) <-> exists i n, o = S i /\ nth_error (kids_at (top root "Objects")) i = Some n /\ node_name n = byt "Material").
Proof. exact @read_materials. Qed.
Print Assumptions C111_materials.

(** ** A file: a cube-less triangle at (5, 0, 0) with a red material *)
Definition nd (s : string) (a : list attr) (k : list node) : node := Node (byt s) a k.
Definition sval (s : string) : attr := AStr (byt s).
Definition class (n c : string) : attr := AStr (byt n ++ [0; 1] ++ byt c).
Definition C111_row (n : string) (v : list attr) : node := nd "P" ([sval n; sval n; sval ""; sval "A"] ++ v) [].
Definition C111_file (version : Z) (objs conns : list node) : node :=
  Node (byt "_FBX_ROOT") [] [nd "FBXHeaderExtension" [] [nd "FBXVersion" [AI32 version] []]; nd "Objects" [] objs; nd "Connections" [] conns].
Definition C111_oo (a b : attr) : node := nd "C" [sval "OO"; a; b] [].
Definition C111_mesh : list node := [nd "Vertices" [AF64s [0; 0; 0; 1; 0; 0; 0; 1; 0]] []; nd "PolygonVertexIndex" [AI32s [0; 1; -3]] []].
Definition C111_objs : list node :=
  [nd "Model" [AI64 10; class "tri" "Model"; sval "Mesh"] [nd "Properties70" [] [C111_row "Lcl Translation" [AF64 5; AF64 0; AI32 0]]];
   nd "Material" [AI64 30; class "red" "Material"; sval ""] [nd "Properties70" [] [C111_row "DiffuseColor" [AF64 1; AF64 0; AF64 0]]];
   nd "Geometry" [AI64 20; class "" "Geometry"; sval "Mesh"] C111_mesh].
Definition C111_conns : list node := [C111_oo (AI64 10) (AI64 0); C111_oo (AI64 99) (AI64 10); C111_oo (AI64 20) (AI64 10); C111_oo (AI64 30) (AI64 10)].
Definition C111_root : node := C111_file 7400 C111_objs C111_conns.
(** Numbers are whole here, and matrices translations. *)
Definition C111_local (p : string -> list (option Z)) : mat4 Z := let t := attr_vec (p "Lcl Translation") 0 0 0 in mat_translate (vx t) (vy t) (vz t).
Definition C111_doc (root : node) : fdoc Z := read_doc (fun z => z) (fun z => z) (fun z => z) C111_local root.
Lemma C111_meets : version C111_root <> 6100 /\ numbers_ok C111_objs C111_conns.
Proof.
  assert (W : forall n i v, nth_error (node_attrs n) i = Some (AI64 v) -> whole_at n i v) by (intros n i v E; exists (AI64 v); tauto).
  split; [vm_compute; discriminate|]. split.
  - exists [10; 30; 20]. split.
    + repeat (apply Forall2_cons; [apply W; reflexivity|]). apply Forall2_nil.
    + repeat constructor; cbn; intuition discriminate.
  - repeat (apply Forall_cons; [intros _; eexists _, _; split; apply W; reflexivity|]). apply Forall_nil.
Qed.
Example C111_example : fdConns (C111_doc C111_root) = [(1, 0); (3, 1); (2, 1)]%nat /\ fdMats (C111_doc C111_root) = [2%nat] /\
  exists st, convert_fbx 0 0 (C111_doc C111_root) 3 (mkFOpt false false false 0 None "" None) [] 0 = FOk (st, [convert_material 0 (C111_doc C111_root) 2]) /\
    map (fun o => (oName o, oVerts o)) (fsObjs st) = [("tri", [mkV3 5 0 0; mkV3 6 0 0; mkV3 5 1 0])] /\
    qx (mtColor (convert_material 0 (C111_doc C111_root) 2)) = 1 /\ qy (mtColor (convert_material 0 (C111_doc C111_root) 2)) = 0.
Proof. split; [vm_compute; reflexivity|]. split; [vm_compute; reflexivity|]. eexists. repeat split; vm_compute; reflexivity. Qed.
Lemma C111_says objs c f t v w : linking c -> nth_error (node_attrs c) 1 = Some (AI64 v) -> nth_error (node_attrs c) 2 = Some (AI64 w) -> numbered objs v f -> numbered objs w t -> says objs false c f t.
Proof. intros L Ev Ew Nf Nt. apply (sy_number objs c v w f t); trivial; [exists (AI64 v)|exists (AI64 w)]; auto. Qed.

(** Version 6100: the same in names. *)
Definition C111_old (scene : bytes) : node :=
  C111_file 6100 [nd "Model" [class "tri" "Model"; sval "Mesh"] (nd "Properties60" [] [nd "Property" [sval "Lcl Translation"; sval "Lcl Translation"; sval "A+"; AF64 5; AF64 0; AF64 0] []] :: C111_mesh)]
    [nd "Connect" [sval "OO"; class "tri" "Model"; AStr scene] []].
Example C111_old_example : fdConns (C111_doc (C111_old scene_binary)) = [(1, 0)]%nat /\ geometry (C111_doc (C111_old scene_binary)) 1 = Some (2%nat, read_geom (fun z => z) (fun z => z) (fun z => z) (nth 0 (object_nodes (C111_old scene_binary)) (nd "" [] []))) /\
  exists st, convert_fbx 0 0 (C111_doc (C111_old scene_binary)) 3 (mkFOpt false false false 0 None "" None) [] 0 = FOk (st, []) /\ map (@oVerts Z) (fsObjs st) = [[mkV3 0 0 0; mkV3 1 0 0; mkV3 0 1 0]].
Proof. split; [vm_compute; reflexivity|]. split; [vm_compute; reflexivity|]. eexists. split; vm_compute; reflexivity. Qed.

(** Refuted: in text files of version 6100 the scene has its other name, so nothing belongs to it and nothing is converted. *)
Theorem C111_text_refuted : exists root c, version root = 6100 /\ In c (kids_at (top root "Connections")) /\ says (kids_at (top root "Objects")) true c 1 0 /\
  refs (C111_doc root) 0 = [] /\ exists st, convert_fbx 0 0 (C111_doc root) 3 (mkFOpt false false false 0 None "" None) [] 0 = FOk (st, []) /\ fsObjs st = [].
Proof.
  exists (C111_old scene_text). eexists. split; [reflexivity|]. split; [left; reflexivity|]. split.
  - apply (sy_name _ _ (byt "tri" ++ [0; 1] ++ byt "Model") scene_text); [left; left; reflexivity|left; reflexivity|left; reflexivity| |apply cl_text].
    eapply (cl_object _ 0); [reflexivity|left; reflexivity].
  - split; [vm_compute; reflexivity|]. eexists. split; vm_compute; reflexivity.
Qed.
Print Assumptions C111_text_refuted.
(** Refuted: properties of models of version 6100 (Properties60) are not read; the model of the example is not at (5, 0, 0) (see [C111_old_example]), whatever it says. *)
Theorem C111_properties_refuted : forall (T : Type) (N : Num T) f32 f64 of_int rows, exists root, version root = 6100 /\
  (exists m, nth_error (kids_at (top root "Objects")) 0 = Some m /\ kids_at (kid "Properties60" (Some m)) = rows) /\
  forall local_of m, fdObjs (read_doc f32 f64 of_int local_of root) 1 = Some (OModel m) -> (forall p q, (forall k, p k = q k) -> local_of p = local_of q) -> fmLocal m = local_of (fun _ => []).
Proof.
  intros T N f32 f64 of_int rows. exists (C111_file 6100 [nd "Model" [class "a" "Model"; sval "Null"] [nd "Properties60" [] rows]] []).
  split; [reflexivity|]. split; [eexists; split; reflexivity|]. intros local_of m E X.
  cbn in E. injection E as <-. cbn [fmLocal]. apply X. intros k. reflexivity.
Qed.
Print Assumptions C111_properties_refuted.
(** Refuted: an object without a number takes the place of the scene. *)
Theorem C111_zero_refuted : exists root c, version root <> 6100 /\ In c (kids_at (top root "Connections")) /\ says (kids_at (top root "Objects")) false c 1 0 /\ refs (C111_doc root) 0 = [].
Proof.
  exists (C111_file 7400 (C111_objs ++ [nd "Pose" [] []]) C111_conns). eexists. split; [vm_compute; discriminate|]. split; [left; reflexivity|]. split; [|vm_compute; reflexivity].
  apply (C111_says _ _ _ _ 10 0); [left; left; reflexivity|reflexivity|reflexivity| |apply nb_scene].
  eapply (nb_object _ 0); [reflexivity|]. exists (AI64 10). auto.
Qed.
Print Assumptions C111_zero_refuted.
(** Refuted: of two objects with one number the first is not connected. *)
Theorem C111_twice_refuted : exists root c, version root <> 6100 /\ In c (kids_at (top root "Connections")) /\ says (kids_at (top root "Objects")) false c 1 0 /\ ~ In 1%nat (refs (C111_doc root) 0).
Proof.
  exists (C111_file 7400 (C111_objs ++ [nd "Model" [AI64 10; class "b" "Model"; sval "Mesh"] []]) C111_conns). eexists. split; [vm_compute; discriminate|]. split; [left; reflexivity|].
  split; [|vm_compute; intuition discriminate].
  apply (C111_says _ _ _ _ 10 0); [left; left; reflexivity|reflexivity|reflexivity| |apply nb_scene].
  eapply (nb_object _ 0); [reflexivity|]. exists (AI64 10). auto.
Qed.
Print Assumptions C111_twice_refuted.
(** Refuted: a connection of anything but numbers connects the scene with itself, and the conversion does not end. *)
Definition C111_named : node := C111_file 7400 C111_objs [C111_oo (class "tri" "Model") (AStr scene_binary)].
Theorem C111_loop_refuted : (forall f t c, In c (kids_at (top C111_named "Connections")) -> ~ says (kids_at (top C111_named "Objects")) false c f t) /\
  fdConns (C111_doc C111_named) = [(0, 0)]%nat /\ forall fuel, convert_fbx 0 0 (C111_doc C111_named) fuel (mkFOpt false false false 0 None "" None) [] 0 = FEndless.
Proof.
  split; [|split; [vm_compute; reflexivity|]].
  - intros f t c I S. vm_compute in I. destruct I as [<-|[]]. inversion S as [? a b ? ? _ (x & E & H) _ _ _|]; subst. cbn in E. injection E as <-. intuition discriminate.
  - assert (H : forall fuel, has_geometry (C111_doc C111_named) fuel 0 = FEndless).
    { induction fuel as [|fuel IH]; [reflexivity|]. cbn [has_geometry].
      replace (geometry (C111_doc C111_named) 0) with (@None (nat * fgeom Z)) by (vm_compute; reflexivity).
      replace (children (C111_doc C111_named) 0) with [0%nat] by (vm_compute; reflexivity). cbn [any_of]. rewrite IH. reflexivity. }
    intros fuel. unfold convert_fbx. replace (fdCoord (C111_doc C111_named)) with (Some (@mat_id Z _)) by (vm_compute; reflexivity). cbn [fopt fbind opTarget opWhole].
    replace (negb (String.eqb "" "")) with false by reflexivity. cbv iota.
    change (fdScene (C111_doc C111_named)) with 0%nat. replace (children (C111_doc C111_named) 0) with [0%nat] by (vm_compute; reflexivity). cbn [ffold].
    replace (kind (C111_doc C111_named) 0) with "" by (vm_compute; reflexivity). replace (negb (String.eqb "" "LimbNode")) with true by reflexivity. cbv iota. rewrite H. reflexivity.
Qed.
Print Assumptions C111_loop_refuted.
Theorem C111_refuted : ~ C111_full.
Proof.
  intros F. specialize (F Z _ (fun z => z) (fun z => z) (fun z => z) C111_local (C111_old scene_text)). vm_compute in F. inversion F as [| |c r l No _]; subst.
  apply (No 1%nat 0%nat). apply (sy_name _ _ (byt "tri" ++ [0; 1] ++ byt "Model") scene_text); [left; left; reflexivity|left; reflexivity|left; reflexivity| |apply cl_text].
  eapply (cl_object _ 0); [reflexivity|left; reflexivity].
Qed.
Print Assumptions C111_refuted.
