(** C91: the assets of a Unity package are found by GUID and by path. *)
From Coq Require Import String Ascii List Bool Arith.
From Verif.Model Require Import Cli UnityPackage.
From Verif.Spec Require Import PackageSpec.
From Verif.Proofs Require Import PackageProofs.
From Verif.Props Require Import C90.
Import ListNotations.
Local Open Scope string_scope.
Local Open Scope list_scope.

(** What is on the disk below the directory is what the archive says. *)
Theorem C91_files_partial : forall tmp fs es complete fs' a, fresh fs tmp -> Forall plain es -> open_package tmp es complete fs = (fs', Some a) ->
  (forall p d, stat fs' (tmp ++ p) = Some (FFile d) <-> file_of es p d) /\
  (forall p, stat fs' (tmp ++ p) = Some FDir <-> p = [] \/ (dir_of es p /\ forall d, ~ file_of es p d)) /\
  (forall p, under tmp p = false -> stat fs' p = stat fs p).
Proof. exact package_files. Qed.
Print Assumptions C91_files_partial.
(** [GetAllAssets] and [GetAsset]: one asset for each file pathname in a directory, with its content. *)
Theorem C91_all_partial : forall tmp fs es complete fs' a, fresh fs tmp -> Forall plain es -> open_package tmp es complete fs = (fs', Some a) ->
  forall g p, In (g, p) a <-> file_of es [g; "pathname"] p.
Proof. exact package_listed. Qed.
Print Assumptions C91_all_partial.
Theorem C91_guid_partial : forall tmp fs es complete fs' a, fresh fs tmp -> Forall plain es -> open_package tmp es complete fs = (fs', Some a) ->
  forall g x, get_asset a g = Some x <-> fst x = g /\ file_of es [g; "pathname"] (snd x).
Proof. exact package_guid. Qed.
Print Assumptions C91_guid_partial.
(** [GetAssetByPath]: of several with the same path the one with the greatest GUID. *)
Theorem C91_path_partial : forall tmp fs es complete fs' a, fresh fs tmp -> Forall plain es -> open_package tmp es complete fs = (fs', Some a) ->
  forall p g q, get_by_path a p = Some (g, q) <-> q = p /\ file_of es [g; "pathname"] p /\ forall g', file_of es [g'; "pathname"] p -> String.leb g' g = true.
Proof. exact package_path. Qed.
Print Assumptions C91_path_partial.
(** [Open] gives the file asset beside it, [GetMetaFile] reads asset.meta. *)
Theorem C91_open_partial : forall tmp fs es complete fs' a, fresh fs tmp -> Forall plain es -> open_package tmp es complete fs = (fs', Some a) ->
  forall p d, open_asset fs' tmp a p = Some d <->
    exists g, file_of es [g; "pathname"] p /\ (forall g', file_of es [g'; "pathname"] p -> String.leb g' g = true) /\ file_of es [g; "asset"] d.
Proof. exact package_open. Qed.
Print Assumptions C91_open_partial.
Theorem C91_meta_partial : forall tmp fs es complete fs' a, fresh fs tmp -> Forall plain es -> open_package tmp es complete fs = (fs', Some a) ->
  forall x d, open_meta fs' tmp x = Some d <-> file_of es [fst x; "asset.meta"] d.
Proof. exact package_meta. Qed.
Print Assumptions C91_meta_partial.
(** A package whose files come after their directories can be opened. *)
Theorem C91_opens_partial : forall tmp fs es, fresh fs tmp -> Forall plain es -> well_ordered es -> (forall g, ~ dir_of es [g; "pathname"]) ->
  exists fs' a, open_package tmp es true fs = (fs', Some a).
Proof. exact package_opens. Qed.
Print Assumptions C91_opens_partial.

Definition C91_es : list tentry :=
  [mkTE TDir "b1/" ""; mkTE TReg "b1/asset" "old"; mkTE TReg "b1/pathname" "Assets/x.png"; mkTE TDir "a2" ""; mkTE TReg "a2/asset" "scene"; mkTE TReg "a2/asset.meta" "guid: a2";
   mkTE TReg "a2/pathname" "Assets/s.unity"; mkTE TReg ".icon.png" "i"; mkTE TReg "b1/asset" "new"; mkTE TDir "c3" ""; mkTE TReg "c3/preview.png" "p"].
Example C91_example : exists fs', open_package C90_tmp C91_es true C90_disk = (fs', Some [("a2", "Assets/s.unity"); ("b1", "Assets/x.png")]) /\ Forall plain C91_es /\
  open_asset fs' C90_tmp [("a2", "Assets/s.unity"); ("b1", "Assets/x.png")] "Assets/x.png" = Some "new".
Proof. eexists. split; [reflexivity|]. split; [|reflexivity]. repeat (apply Forall_nil || apply Forall_cons); unfold plain; cbn; intuition discriminate. Qed.

(** A package in order. *)
Example C91_ordered : well_ordered [mkTE TDir "a2/" ""; mkTE TReg "a2/pathname" "Assets/s.unity"].
Proof.
  split.
  - intros [|e1 [|e2 pre]] e post H K.
    + injection H as <- _. discriminate.
    + cbn [app] in H. injection H as <- <- _. split; [discriminate|]. right. exists (mkTE TDir "a2/" ""), []. repeat split. now left.
    + destruct pre; discriminate.
  - intros e [<-|[<-|[]]] K; [discriminate|]. intros (x & q & [<-|[<-|[]]] & Kx & N); [|discriminate]. destruct q; discriminate.
Qed.

(** Refuted: a package that lists files only, without entries for their directories, is rejected. *)
Theorem C91_nodirs_refuted : exists tmp fs es fs', fresh fs tmp /\ Forall plain es /\ file_of es ["a2"; "pathname"] "Assets/s.unity" /\ open_package tmp es true fs = (fs', None).
Proof.
  exists C90_tmp, C90_disk, [mkTE TReg "a2/pathname" "Assets/s.unity"]. eexists. split; [exact C90_fresh|]. split; [repeat (apply Forall_nil || apply Forall_cons); unfold plain; cbn; intuition discriminate|].
  split; [|reflexivity]. exists [], (mkTE TReg "a2/pathname" "Assets/s.unity"), []. repeat split. intros e [].
Qed.
Print Assumptions C91_nodirs_refuted.
(** Refuted: the whole file pathname is taken for the path, also its second line. *)
Definition C91_two_lines : string := "Assets/s.unity" ++ String "010" "00".
Theorem C91_line_refuted : exists tmp fs es fs' a, fresh fs tmp /\ Forall plain es /\ file_of es ["a2"; "pathname"] C91_two_lines /\ file_of es ["a2"; "asset"] "scene" /\
  open_package tmp es true fs = (fs', Some a) /\ open_asset fs' tmp a "Assets/s.unity" = None.
Proof.
  exists C90_tmp, C90_disk, [mkTE TDir "a2" ""; mkTE TReg "a2/asset" "scene"; mkTE TReg "a2/pathname" C91_two_lines]. eexists. eexists. split; [exact C90_fresh|].
  split; [repeat (apply Forall_nil || apply Forall_cons); unfold plain; cbn; intuition discriminate|]. split; [|split; [|split; reflexivity]].
  - exists [mkTE TDir "a2" ""; mkTE TReg "a2/asset" "scene"], (mkTE TReg "a2/pathname" C91_two_lines), []. repeat split. intros e [].
  - exists [mkTE TDir "a2" ""], (mkTE TReg "a2/asset" "scene"), [mkTE TReg "a2/pathname" C91_two_lines]. repeat split. intros e [<-|[]] _. discriminate.
Qed.
Print Assumptions C91_line_refuted.
