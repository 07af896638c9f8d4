(** C112: an FBX file that is saved again is the same document. *)
From Coq Require Import String Ascii List ZArith Bool Lia.
From Verif.Model Require Import Num Vec Matrix Mqo MqoDoc Codec Fbx FbxDoc FbxText Fbx2Mqo FbxRead.
From Verif.Spec Require Import FbxTextSpec FbxReadSpec FbxSaveSpec.
From Verif.Spec Require FbxSceneSpec.
From Verif.Proofs Require FbxObjects.
From Verif.Proofs Require Import FbxTextProofs FbxTextTop FbxSaveProofs.
From Verif.Props Require Import C28 C111.
Import ListNotations.
Local Open Scope string_scope.
Local Open Scope list_scope.
Local Open Scope Z_scope.

(** The claim without restrictions: whatever is saved is loaded, and the same. *)
Definition C112_full : Prop := forall (T : Type) (N : Num T) f32 f64 of_int local_of parse_float to_i32 fmt32 fmt64 seek inflate root,
  same_numbers parse_float fmt32 fmt64 f32 f64 of_int -> int_floats parse_float to_i32 -> Forall (fun n => ident (node_name n)) (node_kids root) ->
  exists root', parse_any parse_float to_i32 seek inflate (write_text fmt32 fmt64 root) = FTree root' /\
    same_doc (read_doc f32 f64 of_int local_of root) (read_doc f32 f64 of_int local_of root').

(** Trees that have a text (C28) are saved and loaded as the same document; names of classes are the other way round. *)
Theorem C112_kept_partial : forall (T : Type) (N : Num T) f32 f64 of_int local_of parse_float to_i32 fmt32 fmt64 seek inflate root kids,
  same_numbers parse_float fmt32 fmt64 f32 f64 of_int -> int_floats parse_float to_i32 -> (forall p q, (forall n, p n = q n) -> local_of p = local_of q) ->
  Forall tidy (saved (node_kids root)) -> whole_ids (kids_at (top root "Objects")) (kids_at (top root "Connections")) -> version root <> 6100 ->
  trees_as parse_float fmt32 fmt64 (saved (node_kids root)) kids ->
  exists root', parse_any parse_float to_i32 seek inflate (write_text fmt32 fmt64 root) = FTree root' /\
    same_doc (read_doc f32 f64 of_int local_of root) (read_doc f32 f64 of_int local_of root').
Proof.
  intros T N f32 f64 of_int local_of pf ti fmt32 fmt64 seek inflate root kids SN IF EXT Ty W V R. exists (Node root_name [] kids). split.
  - exact (C28_image_partial pf ti fmt32 fmt64 seek inflate root kids IF R).
  - exact (saved_doc f32 f64 of_int local_of pf fmt32 fmt64 SN EXT root kids Ty W V R).
Qed.
Print Assumptions C112_kept_partial.

(** ** The file of C111, with whole numbers *)
Definition C112_parse (s : bytes) : Z * bool := (match s with 45 :: d => - horner d | _ => horner s end, true).
Lemma C112_decimal s v : decimal s v -> fst (C112_parse s) = v.
Proof.
  intros [NE [[F ->]|(d & -> & _ & _ & ->)]]; [|reflexivity]. destruct s as [|c r]; [contradiction|]. inversion F as [|? ? Hc _]; subst. unfold digit_char in Hc. unfold C112_parse, fst.
  destruct c as [|p|p]; try reflexivity. repeat (destruct p as [p|p|]; try reflexivity; try lia).
Qed.
Lemma C112_ints : int_floats C112_parse (fun z => z).
Proof. intros s v D _. exact (C112_decimal s v D). Qed.
Lemma C112_numbers : same_numbers C112_parse show show (fun z : Z => z) (fun z => z) (fun z => z).
Proof.
  assert (E : forall b, fst (C112_parse (show b)) = b) by (intros b; apply C112_decimal, show_decimal). repeat split; intros; try apply E; rewrite <- (E b); symmetry; apply C112_decimal; assumption.
Qed.
Definition C112_load (n : node) : option node :=
  match parse_any C112_parse (fun z => z) None (fun _ _ => (0, InfHeader)) (write_text show show n) with FTree t => Some t | _ => None end.
Definition C112_wires : list node := [nd "GlobalSettings" [] [nd "Properties70" [] [nd "P" [sval "UpAxis"; sval "int"; sval "Integer"; sval ""; AI32 1] []; nd "P" [sval "UpAxisSign"; sval "int"; sval "Integer"; sval ""; AI32 1] []]]].
Definition C112_root : node := Node root_name [] (C112_wires ++ nd "FileId" [ARaw [1; 2]] [] :: node_kids C111_root).
Lemma C112_plain s : ~ In 0 s -> ~ separated s.
Proof. intros H (a & b & ->). apply H. rewrite in_app_iff. right. left. reflexivity. Qed.
Ltac C112_tidy :=
  repeat first [apply Forall_nil | apply Forall_cons];
  lazymatch goal with |- tidy _ =>
    apply tidy_node;
    [ let i := fresh in let E := fresh in intros i x E; repeat (destruct i as [|i]; [injection E as <-; first [exact I | discriminate | (intros C112_J; first [exfalso; apply C112_J; reflexivity | apply C112_plain; vm_compute; intuition discriminate])]|]);
      destruct i; discriminate
    | intros C112_W; first [ solve [intros x C112_I; cbn in C112_I; repeat (destruct C112_I as [<-|C112_I]; [intros C112_F; exact C112_F|]); destruct C112_I]
                           | (exfalso; destruct C112_W as [C112_W|(s & C112_E & C112_W)]; [vm_compute in C112_W; intuition discriminate|]; vm_compute in C112_E; first [discriminate | injection C112_E as <-; vm_compute in C112_W; intuition discriminate]) ]
    | C112_tidy ]
  | |- _ => idtac end.
Lemma C112_kids : Forall tidy (saved (node_kids C112_root)).
Proof. change (saved (node_kids C112_root)) with (C112_wires ++ node_kids C111_root). unfold C112_wires, C111_root, C111_file, C111_objs, C111_mesh, C111_conns, C111_row, C111_oo, nd. cbn [app node_kids]. C112_tidy. Qed.
Lemma C112_ident c r : letter c -> Forall (fun c => letter c \/ digit_char c \/ c = 45) r -> ident (c :: r).
Proof. intros Hc Hr. exists c, r. auto. Qed.
Lemma C112_plains s : forallb (fun c => (32 <=? c) && (c <=? 255) && negb (c =? 34) && negb (c =? 92) && negb (c =? 127)) s = true -> Forall plain s.
Proof. intros H. apply Forall_forall. intros c I. apply (proj1 (forallb_forall _ _) H) in I. unfold plain. lia. Qed.
Ltac C112_text :=
  repeat first [apply tas_nil | apply tas_cons | apply ta_node | apply aa_nil | apply aa_cons | apply ra_i64; unfold int64; lia | apply ra_i32; unfold int64; lia
    | apply (ra_f64_int _ _ _ _ _ (show_decimal _)); unfold int64; lia
    | apply ra_i32s; [split; [discriminate|cbn; lia]|repeat (apply Forall_cons; [unfold int32; lia|]); apply Forall_nil]
    | apply ra_f64s_int; [split; [discriminate|cbn; lia]|repeat (apply Forall2_cons; [apply show_decimal|]); apply Forall2_nil|repeat (apply Forall_cons; [unfold int32; lia|]); apply Forall_nil]
    | apply ra_str; apply C112_plains; reflexivity
    | apply ra_class; apply C112_plains; reflexivity
    | apply C112_ident; [unfold letter; cbn; lia|repeat (apply Forall_cons; [unfold letter, digit_char; cbn; lia|]); apply Forall_nil]].
Lemma C112_meets : exists kids, trees_as C112_parse show show (saved (node_kids C112_root)) kids.
Proof.
  eexists. change (saved (node_kids C112_root)) with (C112_wires ++ node_kids C111_root). unfold C112_wires, C111_root, C111_file, C111_objs, C111_mesh, C111_conns, C111_row, C111_oo, nd, sval, class. cbn [app node_kids].
  C112_text.
Qed.
Definition C112_op (target : string) : foption Z := mkFOpt false false false 0 None target None.
Definition C112_convert (root : node) (target : string) : option (list (object Z) * list (material Z)) :=
  match convert_fbx 0 0 (C111_doc root) 3 (C112_op target) [] 0 with FOk (st, mats) => Some (fsObjs st, mats) | _ => None end.
Definition C112_after (root : node) (target : string) : option (list (object Z) * list (material Z)) :=
  match C112_load root with Some root' => C112_convert root' target | None => None end.
(** The saved file converts to the same triangle. *)
Lemma C112_whole : version C112_root <> 6100 /\ whole_ids (kids_at (top C112_root "Objects")) (kids_at (top C112_root "Connections")).
Proof.
  split; [vm_compute; discriminate|]. split; vm_compute.
  - repeat (apply Forall_cons; [intros a [= <-] C112_F; exact C112_F|]); apply Forall_nil.
  - repeat (apply Forall_cons; [intros a C112_I C112_F; repeat (destruct C112_I as [<-|C112_I]; [exact C112_F|]); exact C112_I|]); apply Forall_nil.
Qed.
Example C112_example : option_map (fun root' => fdConns (C111_doc root')) (C112_load C112_root) = Some [(1, 0); (3, 1); (2, 1)]%nat /\
  option_map fst (C112_convert C112_root "") = option_map fst (C112_after C112_root "") /\
  option_map (fun r => (map (fun o => (oName o, oVerts o)) (fst r), map (fun m => qx (mtColor m)) (snd r))) (C112_after C112_root "") = Some ([("tri", [mkV3 5 0 0; mkV3 6 0 0; mkV3 5 1 0])], [1]).
Proof. split; [|split]; vm_compute; reflexivity. Qed.

(** Refuted: materials get another name, so they are others for everything that goes by name. *)
Theorem C112_materials_refuted : option_map (fun r => map (@mtName Z) (snd r)) (C112_convert C112_root "") = Some ["red::Material"] /\
  option_map (fun r => map (@mtName Z) (snd r)) (C112_after C112_root "") = Some ["Material::red"].
Proof. split; vm_compute; reflexivity. Qed.
Print Assumptions C112_materials_refuted.
(** Refuted: a model that can be chosen by its name cannot be chosen in the saved file. *)
Theorem C112_target_refuted : option_map (fun r => map (@oName Z) (fst r)) (C112_convert C112_root "tri") = Some ["tri"] /\
  option_map (fun r => map (@oName Z) (fst r)) (C112_after C112_root "tri") = Some [].
Proof. split; vm_compute; reflexivity. Qed.
Print Assumptions C112_target_refuted.
(** The names of objects are the same. *)
Theorem C112_objects_partial : forall n, FbxSceneSpec.plain n -> prefix "Model:" n = false -> (forall m, n <> m ++ "::Model")%string ->
  object_name (FbxSceneSpec.text_name n) = object_name (FbxSceneSpec.binary_name n).
Proof. intros n P A B. rewrite (FbxObjects.binary_shown n P A). exact (FbxObjects.text_shown n P B). Qed.
Print Assumptions C112_objects_partial.
(** Refuted: those of bones are not. *)
Theorem C112_bones_refuted : forall n, FbxSceneSpec.plain n -> prefix "Model::" (n ++ "::Model")%string = false ->
  bone_name (FbxSceneSpec.text_name n) = n /\ bone_name (FbxSceneSpec.binary_name n) = (n ++ "::Model")%string.
Proof. exact bone_names. Qed.
Print Assumptions C112_bones_refuted.
(** Refuted: a file of version 6100 is empty when it has been saved: the scene has its other name (C111). *)
Theorem C112_old_refuted : option_map (fun r => map (@oName Z) (fst r)) (C112_convert (C111_old scene_binary) "") = Some ["tri"] /\
  option_map (fun r => map (@oName Z) (fst r)) (C112_after (C111_old scene_binary) "") = Some [].
Proof. split; vm_compute; reflexivity. Qed.
Print Assumptions C112_old_refuted.
(** Refuted: bones without weights have one of 0 for the first vertex, but not in the saved file. *)
Definition C112_bone : node := C111_file 7400 [nd "Deformer" [AI64 10; class "b" "SubDeformer"; sval "Cluster"] [nd "Indexes" [AI32s []] []; nd "Weights" [AF64s []] []]] [].
Theorem C112_weights_refuted : exists f f' root', fdObjs (C111_doc C112_bone) 1 = Some (ODef f) /\ dfWeights f = [0] /\ C112_load C112_bone = Some root' /\
  fdObjs (C111_doc root') 1 = Some (ODef f') /\ dfWeights f' = [].
Proof. eexists _, _, _. split; [reflexivity|]. split; [reflexivity|]. split; [vm_compute; reflexivity|]. split; reflexivity. Qed.
Print Assumptions C112_weights_refuted.
Theorem C112_refuted : ~ C112_full.
Proof.
  intros F. specialize (F Z _ (fun z => z) (fun z => z) (fun z => z) C111_local C112_parse (fun z => z) show show None (fun _ _ => (0, InfHeader)) (C111_old scene_binary) C112_numbers C112_ints).
  destruct F as (root' & P & S).
  - vm_compute. repeat (apply Forall_cons; [apply C112_ident; [unfold letter; cbn; lia|repeat (apply Forall_cons; [unfold letter, digit_char; cbn; lia|]); apply Forall_nil]|]). apply Forall_nil.
  - destruct S as (_ & _ & C & _). assert (L : C112_load (C111_old scene_binary) = Some root') by (unfold C112_load; rewrite P; reflexivity).
    assert (E : option_map (fun r => fdConns (C111_doc r)) (C112_load (C111_old scene_binary)) = Some []) by (vm_compute; reflexivity).
    rewrite L in E. injection E as E. assert (X : fdConns (C111_doc (C111_old scene_binary)) = []) by (rewrite <- E; exact C). vm_compute in X. discriminate.
Qed.
Print Assumptions C112_refuted.
