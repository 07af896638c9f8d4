(** What the MQO text format keeps of a document. *)
From Coq Require Import String Ascii List ZArith Bool Permutation.
From Verif.Model Require Import Num Vec Matrix Mqo MqoDoc MqoText MqoLex.
Import ListNotations.
Local Open Scope string_scope.

Fixpoint all_chars (p : ascii -> Prop) (s : string) : Prop :=
  match s with EmptyString => True | String c r => p c /\ all_chars p r end.
(** Names: no double quote, line end, NUL or backslash; in file names backslashes are fine. *)
Definition path_char (c : ascii) : Prop := c <> """"%char /\ c <> "010"%char /\ c <> "000"%char.
Definition path_ok (s : string) : Prop := all_chars path_char s.
Definition name_ok (s : string) : Prop := all_chars (fun c => path_char c /\ c <> "\"%char) s.
(** Names of shader parameters: identifiers, or two of them joined by a dot. *)
Definition ident_ok (s : string) : Prop :=
  match s with EmptyString => False | String c r => is_letter c = true /\ all_chars (fun c => is_ident c = true) r end.
Definition key_ok (s : string) : Prop :=
  ident_ok s \/ exists a b, s = a ++ "." ++ b /\ ident_ok a /\ ident_ok b.

Section S.
Context {T : Type} {N : Num T} {X : TextNum T}.

(** The number that is read back when [x] is printed with format [f]. *)
Definition reread (f : ffmt) (x : T) : T :=
  let '(neg, _, s) := fmt_num f x in nmul (parse_num s) (if neg then nopp none else none).
Definition rr3 (f : ffmt) (v : vec3 T) : vec3 T := mkV3 (reread f (vx v)) (reread f (vy v)) (reread f (vz v)).
Definition rr2 (v : vec2 T) : vec2 T := mkV2 (reread FV (v2x v)) (reread FV (v2y v)).
Definition rr4 (v : vec4 T) : vec4 T := mkV4 (reread F3 (qx v)) (reread F3 (qy v)) (reread F3 (qz v)) (reread F3 (qw v)).

(** Faces: an id that is not positive reads as 0; per-corner attributes are kept if they are
    given for every corner. *)
Definition kept_face (f : face T) : face T :=
  mkFace (Z.max 0 (fUID f)) (fVerts f) (fMaterial f)
    (if Nat.eqb (length (fUVs f)) (length (fVerts f)) then map rr2 (fUVs f) else [])
    (if Nat.eqb (length (fNormals f)) (length (fVerts f)) then map (option_map (rr3 FV)) (fNormals f) else []).
(** Vertex ids: vertex [i] gets the id registered for it, or [i + 1]; the newest entry comes
    first. *)
Definition stored_id (m : list (Z * Z)) (i : Z) : Z :=
  match find (fun p => snd p =? i)%Z (rev m) with
  | Some (u, _) => if (u =? 0)%Z then (i + 1)%Z else u
  | None => (i + 1)%Z
  end.
Definition kept_ids (m : list (Z * Z)) (n : nat) : list (Z * Z) :=
  match m with [] => [] | _ => rev (map (fun i => (stored_id m (Z.of_nat i), Z.of_nat i)) (seq 0 n)) end.
(** File names: backslashes become slashes. *)
Definition slashed (s : string) : string :=
  string_of_list_ascii (map (fun c => if ascii_dec c "\" then "/"%char else c) (list_ascii_of_string s)).
(** Objects: the lock is not kept, missing transforms come back as the defaults. *)
Definition kept_object (o : object T) : object T :=
  let mirrored := negb (oMirror o =? 0)%Z || negb (neqb (oMirrorDis o) nzero) in
  let patched := (0 <? oPatch o)%Z in
  let def (d : T) (v : option (vec3 T)) := match v with Some v => Some (rr3 FV v) | None => Some (mkV3 d d d) end in
  mkObj (Z.max 0 (oUID o)) (oName o) (map (rr3 FV) (oVerts o)) (map kept_face (oFaces o)) (oVisible o) false
    (oDepth o) (oFolding o) (oShading o) (reread FV (oFacet o))
    (if patched then oPatch o else 0%Z) (if patched then oPatchSegment o else 0%Z)
    (if mirrored then oMirror o else 0%Z) (if mirrored then reread F6 (oMirrorDis o) else nzero)
    (def none (oScale o)) (def nzero (oRotation o)) (def nzero (oTranslation o)) (option_map (rr3 F3) (oColor o))
    (kept_ids (oVertexByUID o) (length (oVerts o))) None.
(** Materials: the emission colour is not kept; of the extended shader data only the types,
    names and parameters. *)
Definition kept_param (p : string * param T) : string * param T :=
  (fst p, match snd p with PFloat x => PFloat (reread FV x) | q => q end).
Definition kept_ex2 (e : matex2 T) : matex2 T := mkEx2 (exType e) (exName e) (map kept_param (exParams e)) [] [].
Definition kept_material (m : material T) : material T :=
  mkMat (mtName m) (Z.max 0 (mtUID m)) (rr4 (mtColor m)) (reread F3 (mtDiffuse m)) (reread F3 (mtAmbient m))
    (reread F3 (mtEmission m)) (reread F3 (mtSpecular m)) (reread F2 (mtPower m)) (slashed (mtTexture m))
    (slashed (mtBump m)) (slashed (mtAlpha m)) None (mtDouble m) (mtShader m) (option_map kept_ex2 (mtEx2 m)).
Definition kept_scene (s : scene T) : scene T :=
  mkScene (rr3 FV (scPos s)) (rr3 FV (scLook s)) (rr3 F4 (scRot s)) (reread F4 (scZoom2 s))
    (if nltb nzero (scFront s) then reread FV (scFront s) else nzero)
    (if nltb nzero (scBack s) then reread FV (scBack s) else nzero) (scOrtho s) (option_map (rr3 F3) (scAmb s)).
Definition kept_doc (d : text_doc T) : text_doc T :=
  mkTD (tdInclude d) (option_map kept_scene (tdScene d))
    (mkDocument (map kept_material (dMaterials (tdDoc d))) (map kept_object (dObjects (tdDoc d)))).

(** The domain of the format: integers are not negative, and names meet the given conditions. *)
Definition text_face (f : face T) : Prop := Forall (fun v => (0 <= v)%Z) (fVerts f) /\ (0 <= fMaterial f)%Z.
Definition text_object (name : string -> Prop) (o : object T) : Prop :=
  name (oName o) /\ (0 <= oDepth o)%Z /\ (0 <= oShading o)%Z /\ (0 <= oMirror o)%Z /\ (0 <= oPatchSegment o)%Z /\
  Forall (fun p => (0 <= fst p)%Z) (oVertexByUID o) /\ Forall text_face (oFaces o).
Definition text_param (key : string -> Prop) (p : string * param T) : Prop :=
  key (fst p) /\
  match snd p with PBool _ | PFloat _ => True | PInt z => (0 <= z)%Z | PColor _ | PStr _ => False end.
Definition text_ex2 (name key : string -> Prop) (e : matex2 T) : Prop :=
  name (exType e) /\ name (exName e) /\ Forall (text_param key) (exParams e) /\ NoDup (map fst (exParams e)).
Definition text_material (name path key : string -> Prop) (m : material T) : Prop :=
  name (mtName m) /\ path (mtTexture m) /\ path (mtAlpha m) /\ path (mtBump m) /\ (0 <= mtShader m)%Z /\
  (forall e, mtEx2 m = Some e -> text_ex2 name key e).
Definition text_dom (name path key : string -> Prop) (d : text_doc T) : Prop :=
  (forall f, tdInclude d = Some f -> name f /\ f <> "") /\
  Forall (text_material name path key) (dMaterials (tdDoc d)) /\ Forall (text_object name) (dObjects (tdDoc d)).
Definition text_domain : text_doc T -> Prop := text_dom name_ok path_ok key_ok.

(** Documents with nothing the format rounds or cannot hold. *)
Definition stable (f : ffmt) (x : T) : Prop := reread f x = x.
Definition stable3 (f : ffmt) (v : vec3 T) : Prop := stable f (vx v) /\ stable f (vy v) /\ stable f (vz v).
Definition per_corner {A} (f : face T) (l : list A) : Prop := l = [] \/ length l = length (fVerts f).
Definition exact_face (f : face T) : Prop :=
  (0 <= fUID f)%Z /\ per_corner f (fUVs f) /\ per_corner f (fNormals f) /\
  Forall (fun u => stable FV (v2x u) /\ stable FV (v2y u)) (fUVs f) /\
  Forall (fun n => forall v, n = Some v -> stable3 FV v) (fNormals f).
(** A vertex registry: empty, or one positive id for each vertex. *)
Definition exact_ids (m : list (Z * Z)) (n : nat) : Prop :=
  m = [] \/ (NoDup (map fst m) /\ Forall (fun p => (0 < fst p)%Z) m /\ Permutation (map snd m) (map Z.of_nat (seq 0 n))).
Definition exact_object (o : object T) : Prop :=
  (0 <= oUID o)%Z /\ oLocked o = false /\ oInternal o = None /\ Forall (stable3 FV) (oVerts o) /\ Forall exact_face (oFaces o) /\
  stable FV (oFacet o) /\ ((0 < oPatch o)%Z \/ (oPatch o = 0 /\ oPatchSegment o = 0)%Z) /\
  ((oMirror o = 0%Z /\ oMirrorDis o = nzero) \/ (oMirror o <> 0%Z /\ stable F6 (oMirrorDis o))) /\
  (exists v, oScale o = Some v /\ stable3 FV v) /\ (exists v, oRotation o = Some v /\ stable3 FV v) /\
  (exists v, oTranslation o = Some v /\ stable3 FV v) /\ (forall v, oColor o = Some v -> stable3 F3 v) /\
  exact_ids (oVertexByUID o) (length (oVerts o)).
Definition no_backslash (s : string) : Prop := all_chars (fun c => c <> "\"%char) s.
Definition exact_ex2 (e : matex2 T) : Prop :=
  exMapping e = [] /\ exMappingParams e = [] /\ Forall (fun p => forall x, snd p = PFloat x -> stable FV x) (exParams e).
Definition exact_material (m : material T) : Prop :=
  (0 <= mtUID m)%Z /\ (stable F3 (qx (mtColor m)) /\ stable F3 (qy (mtColor m)) /\ stable F3 (qz (mtColor m)) /\ stable F3 (qw (mtColor m))) /\
  stable F3 (mtDiffuse m) /\ stable F3 (mtAmbient m) /\ stable F3 (mtEmission m) /\ stable F3 (mtSpecular m) /\ stable F2 (mtPower m) /\
  no_backslash (mtTexture m) /\ no_backslash (mtBump m) /\ no_backslash (mtAlpha m) /\ mtEmissionColor m = None /\
  (forall e, mtEx2 m = Some e -> exact_ex2 e).
Definition exact_clip (x : T) : Prop := if nltb nzero x then stable FV x else x = nzero.
Definition exact_scene (s : scene T) : Prop :=
  stable3 FV (scPos s) /\ stable3 FV (scLook s) /\ stable3 F4 (scRot s) /\ stable F4 (scZoom2 s) /\
  exact_clip (scFront s) /\ exact_clip (scBack s) /\ (forall v, scAmb s = Some v -> stable3 F3 v).
Definition exact_doc (d : text_doc T) : Prop :=
  (forall s, tdScene d = Some s -> exact_scene s) /\
  Forall exact_material (dMaterials (tdDoc d)) /\ Forall exact_object (dObjects (tdDoc d)).
(** The same document; vertex registries are Go maps, so they are compared by their lookups. *)
Definition with_ids (o : object T) (m : list (Z * Z)) : object T :=
  mkObj (oUID o) (oName o) (oVerts o) (oFaces o) (oVisible o) (oLocked o) (oDepth o) (oFolding o) (oShading o) (oFacet o)
    (oPatch o) (oPatchSegment o) (oMirror o) (oMirrorDis o) (oScale o) (oRotation o) (oTranslation o) (oColor o) m (oInternal o).
Definition same_object (o o' : object T) : Prop :=
  exists m, o' = with_ids o m /\ forall k, assoc m k = assoc (oVertexByUID o) k.
Definition same_doc (d d' : text_doc T) : Prop :=
  tdInclude d' = tdInclude d /\ tdScene d' = tdScene d /\ dMaterials (tdDoc d') = dMaterials (tdDoc d) /\
  Forall2 same_object (dObjects (tdDoc d)) (dObjects (tdDoc d')).
End S.
