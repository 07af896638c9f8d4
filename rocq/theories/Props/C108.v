(** C108: a .glb file contains everything that the document refers to. *)
From Coq Require Import String Ascii List ZArith Bool Arith Lia.
From Verif.Model Require Import Cli GltfPack.
From Verif.Spec Require Import CliSpec PackSpec.
From Verif.Proofs Require Import PackProofs.
Import ListNotations.
Local Open Scope string_scope.
Local Open Scope list_scope.

(** A document in the working directory: every image without data gets the bytes of the file that it names, with the type of the name;
    the others do not change.  The full statement, for documents in any directory [dir], is with [beside cwd dir]. *)
Theorem C108_here_partial : forall file cwd pad d, let d' := to_single_file file cwd pad "." d in
  Forall2 (fun i i' => forall p, String.prefix "/" (kiUri i) = false -> beside cwd "." (kiUri i) p -> packed (file p) d' i i') (kdImages d) (kdImages d').
Proof. exact here_ok. Qed.
Print Assumptions C108_here_partial.

(** It is in one file then, if there was one buffer and all files were there. *)
Theorem C108_self_partial : forall file cwd pad d, (length (kdBufs d) <= 1)%nat ->
  Forall (fun i => kiUri i = "" \/ (exists r, kiUri i = ("data:" ++ r)%string) \/
    kiView i = None /\ String.prefix "/" (kiUri i) = false /\ exists p data, beside cwd "." (kiUri i) p /\ file p = Some data) (kdImages d) ->
  self_contained (to_single_file file cwd pad "." d).
Proof. exact self_ok. Qed.
Print Assumptions C108_self_partial.

(** Wherever the document is, no view loses its bytes, images with data do not change, and no buffer is in another file. *)
Theorem C108_kept : forall file cwd pad dir d, let d' := to_single_file file cwd pad dir d in
  (forall v data, bytes_of d v data -> bytes_of d' v data) /\
  Forall2 (fun i i' => kiView i <> None -> i' = i) (kdImages d) (kdImages d') /\ Forall (fun b => kbUri b = "") (kdBufs d').
Proof. exact kept_ok. Qed.
Print Assumptions C108_kept.

(** In any other directory the file that is opened is never the one that the document means. *)
Theorem C108_elsewhere_refuted : forall cwd dir uri p, away dir -> plain_path uri -> beside cwd dir uri p -> opened cwd dir uri <> Some p.
Proof. exact elsewhere. Qed.
Print Assumptions C108_elsewhere_refuted.

Definition home : list string := ["home"; "me"].
(** The picture of the model, and another one of the same name elsewhere. *)
Definition disk (p : list string) : option (list Z) :=
  if list_eq_dec string_dec p ["home"; "me"; "models"; "tex.png"] then Some [1; 2; 3]%Z
  else if list_eq_dec string_dec p ["home"; "tex.png"] then Some [9; 9]%Z
  else if list_eq_dec string_dec p ["home"; "me"; "my tex.png"] then Some [4]%Z
  else if list_eq_dec string_dec p ["home"; "me"; "a.PNG"] then Some [5; 6]%Z
  else None.
Definition four (n : nat) : nat := ((4 - n mod 4) mod 4)%nat.
Definition model (uri : string) : kdoc := mkKD [mkKB "model.bin" [7; 7; 7]%Z] [mkKV 0 0 3] [mkKI uri "" None].

(** A picture of another file gets into the document. *)
Theorem C108_picture_refuted : exists p, beside home "models" "tex.png" p /\ disk p = Some [1; 2; 3]%Z /\
  exists i, kdImages (to_single_file disk home four "models" (model "tex.png")) = [i] /\ kiView i = Some 1%nat /\
    bytes_of (to_single_file disk home four "models" (model "tex.png")) 1 [9; 9]%Z.
Proof.
  exists ["home"; "me"; "models"; "tex.png"]. split.
  - exists ["models"], ["tex.png"], ["home"; "me"; "models"]. split; [split; [discriminate|split; [repeat constructor; vm_compute; intuition discriminate|reflexivity]]|].
    split; [split; [discriminate|split; [repeat constructor; vm_compute; intuition discriminate|reflexivity]]|].
    split; apply goes_det; reflexivity.
  - split; [reflexivity|]. eexists. split; [vm_compute; reflexivity|]. split; [reflexivity|].
    exists (mkKV 0 4 2), (mkKB "" [7; 7; 7; 0; 9; 9]%Z), [7; 7; 7; 0]%Z, []. repeat split; vm_compute; reflexivity.
Qed.
Print Assumptions C108_picture_refuted.

(** With an absolute path of the document, no picture gets into it, whatever there is. *)
Theorem C108_absolute_refuted : forall file cwd pad r uri mime bufs views, plain_path uri ->
  kdImages (to_single_file file cwd pad (String "/" r) (mkKD bufs views [mkKI uri mime None])) = [mkKI uri mime None].
Proof.
  intros file cwd pad r uri mime bufs views (l & E & P). pose proof (plain_rel _ _ E P) as A.
  unfold to_single_file. cbn [kdImages pack_images]. unfold pack_image. cbn [kiView kiUri]. destruct (String.eqb uri ""); [reflexivity|].
  unfold opened, rel. rewrite A. assert (Ad : Mqo2GltfTextures.is_abs (String "/" r) = true) by (destruct r; reflexivity). rewrite Ad. reflexivity.
Qed.
Print Assumptions C108_absolute_refuted.

(** Blanks in addresses are written as %20, but files are looked for under that name. *)
Theorem C108_encoded_refuted : disk ["home"; "me"; "my tex.png"] = Some [4]%Z /\
  kdImages (to_single_file disk home four "." (model "my%20tex.png")) = [mkKI "my%20tex.png" "" None].
Proof. split; reflexivity. Qed.
Print Assumptions C108_encoded_refuted.

(** Documents with several buffers are not put into one file. *)
Theorem C108_buffers_refuted : forall file cwd pad dir d, (2 <= length (kdBufs d))%nat -> ~ self_contained (to_single_file file cwd pad dir d).
Proof. exact two_buffers. Qed.
Print Assumptions C108_buffers_refuted.

(** Buffers of a .gltf file: those without a name get one, no two of these the same. *)
Theorem C108_names_partial : forall output l, let l' := name_buffers output l in
  map kbData l' = map kbData l /\ Forall2 (fun b b' => kbUri b' <> "" /\ (kbUri b <> "" -> b' = b)) l l' /\
  forall i j b c b' c', nth_error l i = Some b -> nth_error l j = Some c -> nth_error l' i = Some b' -> nth_error l' j = Some c' ->
    kbUri b = "" -> kbUri c = "" -> kbUri b' = kbUri c' -> i = j.
Proof. exact names_ok. Qed.
Print Assumptions C108_names_partial.
(** But a new name can be that of another buffer, so that one of them is overwritten. *)
Theorem C108_names_refuted : exists output l, NoDup (map kbUri l) /\ ~ own_files (name_buffers output l).
Proof.
  exists "out/model.gltf", [mkKB "" [1]%Z; mkKB "model0.bin" [2]%Z]. split; [repeat constructor; cbn; intuition discriminate|].
  unfold own_files. cbn. intros H. inversion H as [|? ? N _]; subst. apply N. now left.
Qed.
Print Assumptions C108_names_refuted.

(** An extension is removed where it is looked for, and no other. *)
Theorem C108_extension_partial : forall n k, (forall e, In e (keMeshes k ++ kePrimitives k ++ keTextures k ++ keImages k ++ keBuffers k ++ keViews k) -> ~ In n e) ->
  forall x, has_extension (remove_extension n k) x <-> has_extension k x /\ x <> n.
Proof. exact removed_ok. Qed.
Print Assumptions C108_extension_partial.
(** It stays in meshes, primitives, textures, images, buffers and views, and in the list of extensions that are used. *)
Theorem C108_extension_refuted : (forall n k e, In n e -> In e (keMeshes k ++ kePrimitives k ++ keTextures k ++ keImages k ++ keBuffers k ++ keViews k) ->
    has_extension (remove_extension n k) n) /\
  (forall n k, In n (keUsed k) -> In n (keUsed (remove_extension n k))).
Proof.
  split; [|intros n k H; exact H]. intros n k e A B. right. exists e. split; [exact A|]. cbn. rewrite !in_app_iff in *. tauto.
Qed.
Print Assumptions C108_extension_refuted.

(** Examples. *)
Example C108_here_example : beside home "." "./x/../a.PNG" ["home"; "me"; "a.PNG"] /\
  to_single_file disk home four "." (model "./x/../a.PNG") = mkKD [mkKB "" [7; 7; 7; 0; 5; 6]%Z] [mkKV 0 0 3; mkKV 0 4 2] [mkKI "" "image/png" (Some 1%nat)].
Proof.
  split; [|reflexivity]. exists ["."], ["."; "x"; ".."; "a.PNG"], ["home"; "me"].
  split; [split; [discriminate|split; [repeat constructor; vm_compute; intuition discriminate|reflexivity]]|].
  split; [split; [discriminate|split; [repeat constructor; vm_compute; intuition discriminate|reflexivity]]|].
  split; apply goes_det; reflexivity.
Qed.
Example C108_away_example : away "models" /\ away "../models" /\ away "/home/me/models" /\ plain_path "textures/tex.png".
Proof.
  split; [right; left; exists ["models"]; split; [split; [discriminate|split; [repeat constructor; vm_compute; intuition discriminate|reflexivity]]|repeat constructor; discriminate]|].
  split; [right; right; exists ["models"]; split; [discriminate|split; [repeat constructor; vm_compute; intuition discriminate|reflexivity]]|].
  split; [left; eexists; reflexivity|].
  exists ["textures"; "tex.png"]. split; [split; [discriminate|split; [repeat constructor; vm_compute; intuition discriminate|reflexivity]]|repeat constructor; discriminate].
Qed.
Example C108_names_example : name_buffers "out/model.gltf" [mkKB "" [1]%Z; mkKB "a.bin" []; mkKB "" [2]%Z] = [mkKB "model0.bin" [1]%Z; mkKB "a.bin" []; mkKB "model2.bin" [2]%Z].
Proof. reflexivity. Qed.
Example C108_extension_example : let k := mkKE [] [] [["VRM"; "X"]] [["X"]; []] [] [] [] [] [["VRM"]] [] [] [] [] [] ["X"] ["X"; "VRM"] in
  remove_extension "X" k = mkKE [] [] [["VRM"]] [[]; []] [] [] [] [] [["VRM"]] [] [] [] [] [] [] ["X"; "VRM"].
Proof. reflexivity. Qed.
