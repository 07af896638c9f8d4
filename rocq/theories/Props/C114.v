(** C114: the textures of a Unity scene are saved where the document refers to. *)
From Coq Require Import String Ascii List Bool.
From Verif.Model Require Import Cli UnityPackage UnityProject UnityTexture.
From Verif.Spec Require Import ProjectSpec UnityTextureSpec.
From Verif.Proofs Require Import UnityTextureProofs.
Import ListNotations.
Local Open Scope string_scope.
Local Open Scope list_scope.

(** If none of the files is there yet, then the name given for each asset leads, from the directory of the source, to a file with what could be read of this asset,
    and an asset that cannot be opened has no name and no file.  Nothing else on the disk changes. *)
Theorem C114_saved_partial : forall open src fs l fs' rs, save_all open src fs (map given l) = (fs', rs) ->
  stat fs src = Some FDir -> (forall d, stat fs (src ++ ["saved_textures"]) <> Some (FFile d)) ->
  Forall asset_ok l -> (forall x y, In x l -> In y l -> fst x = fst y -> snd x = snd y) -> (forall x, In x l -> stat fs (expected src x) = None) ->
  Forall2 (fun x r => match open (slashed (snd x)) with
                      | Some (d, w) => leads fs' src (fst r) d /\ (w = true -> snd r = true)
                      | None => r = ("", false) /\ stat fs' (expected src x) = None
                      end) l rs /\
  (forall q, q <> src ++ ["saved_textures"] -> (forall x, In x l -> q <> expected src x) -> stat fs' q = stat fs q).
Proof. exact save_fresh. Qed.
Print Assumptions C114_saved_partial.
(** Assets with different GUIDs have different files, also if they have the same name. *)
Theorem C114_apart_partial : forall x y, asset_ok x -> asset_ok y -> fst x <> fst y ->
  forall src, join src (texture_ref (fst x) (slashed (snd x))) <> join src (texture_ref (fst y) (slashed (snd y))).
Proof. exact refs_differ. Qed.
Print Assumptions C114_apart_partial.
(** The directory in which the program looks for the textures afterwards is the one in which they were saved: that of the same argument. *)
Theorem C114_base_partial : forall input,
  (trim_suffix ".unitypackage" input <> None /\ split2 "#" input = None /\ lower (ext input) = ".unitypackage") \/
  (trim_suffix ".unitypackage" input = None /\ lower (ext input) <> ".unitypackage" /\ (split2 "#" input <> None \/ before_first "Assets/" input <> None)) ->
  base_input input = Some (fst (unity_names input)).
Proof. exact base_same. Qed.
Print Assumptions C114_base_partial.

(** Two textures with the same name, one of them used twice, and one that cannot be opened. *)
Definition disk0 : fsys := [(["w"], FDir); (["w"; "p"], FDir); (["w"; "p"; "Assets"], FDir)].
Definition open0 (p : string) : option (string * bool) :=
  if String.eqb p "Assets/a/t.png" then Some ("red", true) else if String.eqb p "Assets/b/t.png" then Some ("blue", true) else None.
Definition list0 : list (string * path) := [("11", ["Assets"; "a"; "t.png"]); ("22", ["Assets"; "b"; "t.png"]); ("11", ["Assets"; "a"; "t.png"]); ("33", ["Assets"; "gone.png"])].
Example C114_example : Forall asset_ok list0 /\ (forall x y, In x list0 -> In y list0 -> fst x = fst y -> snd x = snd y) /\
  (forall x, In x list0 -> stat disk0 (expected ["w"; "p"] x) = None) /\
  snd (save_all open0 ["w"; "p"] disk0 (map given list0)) =
    [("saved_textures/11_t.png", true); ("saved_textures/22_t.png", true); ("saved_textures/11_t.png", true); ("", false)] /\
  stat (fst (save_all open0 ["w"; "p"] disk0 (map given list0))) ["w"; "p"; "saved_textures"; "22_t.png"] = Some (FFile "blue").
Proof.
  split; [|split; [|split; [|split]]].
  - repeat (constructor; [repeat split; try discriminate; repeat (constructor; [repeat split; discriminate|]); constructor|]). constructor.
  - intros x y X Y. cbn [list0 In] in X, Y.
    destruct X as [<-|[<-|[<-|[<-|[]]]]], Y as [<-|[<-|[<-|[<-|[]]]]]; cbn; intro E; try reflexivity; discriminate.
  - intros x X. cbn [list0 In] in X. destruct X as [<-|[<-|[<-|[<-|[]]]]]; reflexivity.
  - vm_compute. reflexivity.
  - vm_compute. reflexivity.
Qed.
Example C114_base_example : base_input "/w/p/Assets/s/a.unity" = Some "/w/p/Assets" /\ project_dir [] "/w/p/Assets" = ["w"; "p"] /\
  base_input "p.unitypackage#Assets/s/a.unity" = Some "p.unitypackage" /\ base_input "q/p.unitypackage" = Some "q/p.unitypackage".
Proof. repeat split. Qed.

(** A file that is there already is kept: if the texture was changed since the last run, the document has the old one. *)
Theorem C114_stale_refuted : exists open src fs x fs' r, asset_ok x /\ stat fs src = Some FDir /\ open (slashed (snd x)) = Some ("new", true) /\
  save_all open src fs [given x] = (fs', [(r, true)]) /\ leads fs' src r "old".
Proof.
  exists (fun _ => Some ("new", true)), ["p"], [(["p"], FDir); (["p"; "saved_textures"], FDir); (["p"; "saved_textures"; "11_t.png"], FFile "old")], ("11", ["Assets"; "t.png"]).
  eexists. eexists. split; [|split; [|split; [|split; vm_compute; reflexivity]]]; [|reflexivity|reflexivity].
  repeat split; try discriminate. repeat (constructor; [repeat split; discriminate|]). constructor.
Qed.
Print Assumptions C114_stale_refuted.
(** A file of which only a part could be read stays, and the next run takes it to be complete. *)
Theorem C114_cut_refuted : exists open1 open2 src fs x fs1 fs2 r, asset_ok x /\ stat fs src = Some FDir /\ stat fs (expected src x) = None /\
  open1 (slashed (snd x)) = Some ("beg", false) /\ save_all open1 src fs [given x] = (fs1, [(r, false)]) /\
  open2 (slashed (snd x)) = Some ("begin and end", true) /\ save_all open2 src fs1 [given x] = (fs2, [(r, true)]) /\ leads fs2 src r "beg".
Proof.
  exists (fun _ => Some ("beg", false)), (fun _ => Some ("begin and end", true)), ["p"], [(["p"], FDir)], ("11", ["Assets"; "t.png"]).
  eexists. eexists. eexists. split; [|repeat split; vm_compute; reflexivity].
  repeat split; try discriminate. repeat (constructor; [repeat split; discriminate|]). constructor.
Qed.
Print Assumptions C114_cut_refuted.
(** Without an output name the document is written beside the scene, and its references lead nowhere from there. *)
Theorem C114_output_refuted : exists cwd input job fs' r, make_job "" [input] = Some job /\ jOutput job = "p/Assets/a.mqo" /\ base_input input = Some "p/Assets" /\
  save_all open0 (project_dir cwd "p/Assets") disk0 [("11", "Assets/a/t.png")] = (fs', [(r, true)]) /\
  leads fs' (project_dir cwd "p/Assets") r "red" /\ stat fs' (join (project_dir cwd (jOutput job)) r) = None.
Proof.
  exists ["w"], "p/Assets/a.unity". eexists. eexists. eexists. split; [vm_compute; reflexivity|]. repeat split; vm_compute; reflexivity.
Qed.
Print Assumptions C114_output_refuted.
(** The directories of a package may have any names, so that two assets can have one file: both names lead to the first texture. *)
Theorem C114_underscore_refuted : exists open src fs g1 p1 g2 p2 fs' r, g1 <> g2 /\ stat fs src = Some FDir /\ open p1 = Some ("red", true) /\ open p2 = Some ("blue", true) /\
  save_all open src fs [(g1, p1); (g2, p2)] = (fs', [(r, true); (r, true)]) /\ leads fs' src r "red".
Proof.
  exists (fun p => if String.eqb p "Assets/b_c.png" then Some ("red", true) else Some ("blue", true)), ["p"], [(["p"], FDir)], "a", "Assets/b_c.png", "a_b", "Assets/c.png".
  eexists. eexists. split; [discriminate|]. repeat split; vm_compute; reflexivity.
Qed.
Print Assumptions C114_underscore_refuted.
(** A directory whose own name ends like that of a scene is opened by the loader; the program panics after the conversion. *)
Theorem C114_panic_refuted : exists input, is_unity (lower (ext input)) = true /\ unity_names input = (input, "") /\ base_input input = None.
Proof. exists "city.unity". repeat split. Qed.
Print Assumptions C114_panic_refuted.
