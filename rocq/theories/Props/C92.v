(** C92: the scene given on the command line is the one that is loaded. *)
From Coq Require Import String Ascii List Bool Arith.
From Verif.Model Require Import Cli UnityPackage UnityProject.
From Verif.Spec Require Import PackageSpec ProjectSpec.
From Verif.Proofs Require Import PackageProofs ProjectProofs.
Import ListNotations.
Local Open Scope string_scope.
Local Open Scope list_scope.

(** A file below a directory Assets, named by an absolute path or one relative to the working directory, with a meta file beside it: its content is loaded.  No directory above
    has a name that ends in Assets, and nothing has a # in its name. *)
Theorem C92_scene_partial : forall guid_of order, (forall l x, In x (order l) <-> In x l) -> forall fs cwd ab pre rel d g, disk_ok fs -> Forall name_ok (pre ++ "Assets" :: rel) -> rel <> [] ->
  without "#" (slashed (pre ++ "Assets" :: rel)) -> lower (ext (written ab (pre ++ "Assets" :: rel))) <> ".unitypackage" -> Forall (fun c => forall s, c <> (s ++ "Assets")%string) pre ->
  stat fs (base cwd ab ++ pre ++ ["Assets"]) = Some FDir -> stat fs (base cwd ab ++ pre ++ "Assets" :: rel) = Some (FFile d) ->
  described guid_of fs (base cwd ab ++ pre) ("Assets" :: rel) g ->
  scene_content guid_of order fs cwd (written ab (pre ++ "Assets" :: rel)) = Some d.
Proof. exact scene_loaded. Qed.
Print Assumptions C92_scene_partial.
(** The assets of a project are exactly those that have a meta file. *)
Theorem C92_assets : forall guid_of order, (forall l x, In x (order l) <-> In x l) -> forall fs proj name, disk_ok fs -> stat fs (proj ++ [name]) = Some FDir ->
  forall g t, In (g, t) (scan_assets guid_of order fs proj (proj ++ [name])) <-> (exists t', t = name :: t' /\ t' <> []) /\ described guid_of fs proj t g.
Proof. exact assets_in. Qed.
Print Assumptions C92_assets.
(** Without a path the only scene is taken, and none if there are several. *)
Theorem C92_only : forall a x, NoDup (map fst a) -> NoDup (map (fun y => slashed (snd y)) a) -> (forall y, In y a -> slashed (snd y) <> "") ->
  (choose_scene a "" = Some x <-> In x a /\ is_scene x = true /\ forall y, In y a -> is_scene y = true -> y = x).
Proof. exact only_scene. Qed.
Print Assumptions C92_only.

(** A disk with a project in the given directory. *)
Definition C92_disk (dir : path) : fsys :=
  [(dir ++ ["Assets"; "s.unity"], FFile "scene"); (dir ++ ["Assets"; "s.unity.meta"], FFile "guid: 5"); (dir ++ ["Assets"], FDir)].
Definition C92_guid (s : string) : option string := match trim_suffix "5" s with Some _ => Some "5" | None => None end.
Definition C92_order (l : list path) : list path := l.
Example C92_example : scene_content C92_guid C92_order (C92_disk ["home"; "game"]) ["home"] "game/Assets/s.unity" = Some "scene" /\
  scene_content C92_guid C92_order (C92_disk ["home"; "game"]) ["tmp"] "/home/game/Assets/s.unity" = Some "scene" /\
  scene_content C92_guid C92_order (C92_disk ["home"; "game"]) ["home"] "game/Assets#" = Some "scene" /\
  scene_content C92_guid C92_order (C92_disk ["home"; "game"]) ["home"] "game/Assets#Assets/s.unity" = Some "scene".
Proof. repeat split. Qed.
Example C92_meets : disk_ok (C92_disk ["home"; "game"]) /\ Forall name_ok (["game"] ++ "Assets" :: ["s.unity"]) /\ written false (["game"] ++ "Assets" :: ["s.unity"]) = "game/Assets/s.unity" /\
  described C92_guid (C92_disk ["home"; "game"]) (["home"] ++ ["game"]) ("Assets" :: ["s.unity"]) "5".
Proof.
  split; [|split; [|split; [reflexivity|]]].
  - intros p n [H|[H|[H|[]]]]; injection H as <- <-; (split; [repeat constructor; discriminate|discriminate]).
  - repeat constructor; discriminate.
  - exists ["Assets"], "s.unity", "guid: 5". repeat split. discriminate.
Qed.

(** Refuted: the first occurrence of Assets/ is taken, also inside of another name. *)
Theorem C92_inside_refuted : exists fs input d, stat fs (located [] input) = Some (FFile d) /\ described C92_guid fs ["home"; "GameAssets"; "p"] ["Assets"; "s.unity"] "5" /\
  located [] input = ["home"; "GameAssets"; "p"; "Assets"; "s.unity"] /\ scene_content C92_guid C92_order fs [] input = None.
Proof.
  exists (C92_disk ["home"; "GameAssets"; "p"]), "/home/GameAssets/p/Assets/s.unity", "scene". split; [reflexivity|]. split; [|split; reflexivity].
  exists ["Assets"], "s.unity", "guid: 5". repeat split. discriminate.
Qed.
Print Assumptions C92_inside_refuted.
(** Refuted: a directory with a # in its name. *)
Theorem C92_hash_refuted : exists fs input d, stat fs (located [] input) = Some (FFile d) /\ described C92_guid fs ["C#"] ["Assets"; "s.unity"] "5" /\
  located [] input = ["C#"; "Assets"; "s.unity"] /\ scene_content C92_guid C92_order fs [] input = None.
Proof.
  exists (C92_disk ["C#"]), "/C#/Assets/s.unity", "scene". split; [reflexivity|]. split; [|split; reflexivity].
  exists ["Assets"], "s.unity", "guid: 5". repeat split. discriminate.
Qed.
Print Assumptions C92_hash_refuted.
(** Refuted: with a slash at the end of the directory no asset has its path. *)
Theorem C92_slash_refuted : scene_content C92_guid C92_order (C92_disk ["home"; "game"]) ["home"] "game/Assets#Assets/s.unity" = Some "scene" /\
  scene_content C92_guid C92_order (C92_disk ["home"; "game"]) ["home"] "game/Assets/#Assets/s.unity" = None.
Proof. split; reflexivity. Qed.
Print Assumptions C92_slash_refuted.
