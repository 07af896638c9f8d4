(** [unity/unity.go], [unity/unity_components.go] and [unity/unity_scene.go]: loading a scene, its prefabs and their modifications, and following references.  A scene file is
    given by its decoded documents (splitting them: UnityYaml.v).  Pointers are modelled by addresses: the file ids of the prefab instances that lead to an element, and its
    own file id; ids within a file are taken to be different.  Of the components only transforms and mesh renderers have fields here, of a renderer two. *)
From Coq Require Import String Ascii List ZArith Bool.
From Verif.Model Require Import Vec Cli UnityProject.
Import ListNotations.
Local Open Scope string_scope.
Local Open Scope list_scope.
Local Open Scope Z_scope.

(** [Ref] (unity.go 53-57) and [IsValid] (unity.go 61-63). *)
Record sref := mkSRef { srFile : Z; srGuid : string; srType : Z }.
Definition sref_eqb (a b : sref) : bool := (srFile a =? srFile b) && String.eqb (srGuid a) (srGuid b) && (srType a =? srType b).
Definition valid (r : option sref) : bool := match r with Some r => negb (srFile r =? 0) | None => false end.

Section Scene.
Context {T : Type}.
(** The float zero, float32(int) and int(float32). *)
Variables (zero : T) (of_int : Z -> T) (to_int : T -> Z).

(** [GameObject] (unity.go 65-78). *)
Record ugo := mkUG { ugName : string; ugActive : Z; ugTag : string; ugComps : list sref; ugCorr : option sref; ugPrefab : option sref }.
(** [Transform] (unity_components.go 52-67) with the references of [BaseComponent] (unity_components.go 34-43). *)
Record utrans := mkUT { utGo : sref; utCorr : option sref; utPrefab : option sref; utFather : sref; utChildren : list (option sref);
  utRot : vec4 T; utPos : vec3 T; utScale : vec3 T; utHint : vec3 T; utRootOrder : Z }.
(** [MeshRenderer] (unity_components.go 130-142). *)
Record urend := mkUR { urEnabled : Z; urMaterials : list (option sref) }.
Definition addr : Type := list Z * Z.
(** What a scene holds (unity.go 7-14): elements by file id, root objects, and here also the children that [AddChild] appended to a transform. *)
Inductive elem : Type := EGo (g : ugo) | ETr (t : utrans) | ERend (r : urend) | EPrefab (s : scene) | EOther
with scene : Type := mkScene (guid : string) (elems : list (Z * elem)) (roots : list addr) (added : list (addr * addr)).
Definition scGuid (s : scene) := let '(mkScene g _ _ _) := s in g.
Definition scElems (s : scene) := let '(mkScene _ e _ _) := s in e.
Definition scRoots (s : scene) := let '(mkScene _ _ r _) := s in r.
Definition scAdded (s : scene) := let '(mkScene _ _ _ a) := s in a.

(** The map [Elements]: the last assignment is first in the list. *)
Fixpoint find_elem (l : list (Z * elem)) (k : Z) : option elem :=
  match l with
  | [] => None
  | (i, e) :: r => if i =? k then Some e else find_elem r k
  end.
(** The scene that the instances [p] lead to, and the element at an address. *)
Fixpoint sub (s : scene) (p : list Z) : option scene :=
  match p with
  | [] => Some s
  | i :: q => match find_elem (scElems s) i with Some (EPrefab s') => sub s' q | _ => None end
  end.
Definition elem_at (s : scene) (a : addr) : option elem := match sub s (fst a) with Some s' => find_elem (scElems s') (snd a) | None => None end.
Definition tr_at (s : scene) (a : addr) : option utrans := match elem_at s a with Some (ETr t) => Some t | _ => None end.
Definition go_at (s : scene) (a : addr) : option ugo := match elem_at s a with Some (EGo g) => Some g | _ => None end.

(** [GetElement2] (unity.go 23-34) of the scene at [p] within [s]: the address of the element, if it is there. *)
Definition get_element2 (s : scene) (p : list Z) (r : option sref) (inst : option sref) : option addr :=
  match r, sub s p with
  | Some r0, Some s' =>
      if negb (valid r) then None
      else if negb (String.eqb (srGuid r0) "") && negb (String.eqb (srGuid r0) (scGuid s')) && valid inst then
        match inst with
        | Some i => match find_elem (scElems s') (srFile i) with
                    | Some (EPrefab s'') => match find_elem (scElems s'') (srFile r0) with Some _ => Some (p ++ [srFile i], srFile r0) | None => None end
                    | _ => None
                    end
        | None => None
        end
      else match find_elem (scElems s') (srFile r0) with Some _ => Some (p, srFile r0) | None => None end
  | _, _ => None
  end.
(** [GameObject.GetTransform] (unity.go 107-114): the first component that is a transform. *)
Fixpoint first_transform (s : scene) (p : list Z) (inst : option sref) (cs : list sref) : option addr :=
  match cs with
  | [] => None
  | c :: r => match get_element2 s p (Some c) inst with
              | Some a => match tr_at s a with Some _ => Some a | None => first_transform s p inst r end
              | None => first_transform s p inst r
              end
  end.
Definition object_transform (s : scene) (a : addr) : option addr :=
  match go_at s a with Some g => first_transform s (fst a) (ugPrefab g) (ugComps g) | None => None end.
(** [Scene.GetTransform] (unity.go 41-51): a stripped transform stands for one in a prefab. *)
Definition get_transform (s : scene) (p : list Z) (r : option sref) (inst : option sref) : option addr :=
  match get_element2 s p r inst with
  | Some a => match tr_at s a with
              | Some t => if negb (valid (Some (utGo t))) && valid (utCorr t) then
                            match get_element2 s (fst a) (utCorr t) (utPrefab t) with
                            | Some a2 => match tr_at s a2 with Some _ => Some a2 | None => Some a end
                            | None => Some a
                            end
                          else Some a
              | None => None
              end
  | None => None
  end.
(** [GetGameObject] of a component (unity_components.go 47-50). *)
Definition transform_object (s : scene) (a : addr) : option addr :=
  match tr_at s a with
  | Some t => match get_element2 s (fst a) (Some (utGo t)) (utPrefab t) with
              | Some b => match go_at s b with Some _ => Some b | None => None end
              | None => None
              end
  | None => None
  end.
Definition addr_eqb (a b : addr) : bool := if list_eq_dec Z.eq_dec (fst a) (fst b) then snd a =? snd b else false.
Definition push (i : Z) (a : addr) : addr := (i :: fst a, snd a).
(** What was appended to the transform at [a] while the scenes on the way were loaded, those further inside first. *)
Fixpoint added_to (s : scene) (p : list Z) (f : Z) : list addr :=
  (match p with
   | [] => []
   | i :: q => match find_elem (scElems s) i with Some (EPrefab s') => map (push i) (added_to s' q f) | _ => [] end
   end) ++ map snd (filter (fun e => addr_eqb (fst e) (p, f)) (scAdded s)).
Definition listed_children (s : scene) (a : addr) : list addr :=
  match tr_at s a with
  | Some t => flat_map (fun c => match get_transform s (fst a) c (utPrefab t) with Some b => [b] | None => [] end) (utChildren t)
  | None => []
  end.
(** [GetChildren] (unity_components.go 84-96).  The list is kept after the first call; that only matters if a later modification changes [m_Children], which is left out. *)
Definition get_children (s : scene) (a : addr) : list addr := listed_children s a ++ added_to s (fst a) (snd a).

(** ** Modifications *)

(** A value and a modification (unity.go 116-128). *)
Inductive mval : Type := VFloat (x : T) | VInt (n : Z) | VStr (s : string) | VOther.
Record pmod := mkPM { pmTarget : option sref; pmPath : string; pmValue : mval; pmRef : option sref }.
(** unity_scene.go 120-129, 151 *)
Definition float_of (v : mval) : T := match v with VFloat x => x | VInt n => of_int n | _ => zero end.
Definition string_of (v : mval) : string := match v with VStr s => s | _ => "" end.

(** [strconv.ParseInt(s, 10, 32)]. *)
Definition digit (c : ascii) : option Z := let n := Z.of_nat (nat_of_ascii c) in if (48 <=? n) && (n <=? 57) then Some (n - 48) else None.
Fixpoint digits (acc : Z) (s : string) : option Z :=
  match s with
  | "" => Some acc
  | String c r => match digit c with Some d => digits (acc * 10 + d) r | None => None end
  end.
Definition parse_int32 (s : string) : option Z :=
  let '(neg, body) := match s with
                      | String "-" r => (true, r)
                      | String "+" r => (false, r)
                      | _ => (false, s)
                      end in
  match body with
  | "" => None
  | _ => match digits 0 body with
         | Some n => let v := if neg : bool then - n else n in if (-2147483648 <=? v) && (v <=? 2147483647) then Some v else None
         | None => None
         end
  end.
(** unity_scene.go 139-143: no index, an index, or a crash (slice out of range). *)
Inductive pindex : Type := NoIndex | Index (n : Z) | BadIndex.
Definition array_index (prop : list string) : pindex :=
  match prop with
  | [_; a; d] =>
      if String.eqb a "Array" && has_prefix "data[" d then
        if (String.length d <=? 5)%nat then BadIndex
        else match parse_int32 (substring 5 (String.length d - 6) d) with Some n => Index n | None => NoIndex end
      else NoIndex
  | _ => NoIndex
  end.
(** Setting fields (unity_scene.go 139-183); [None]: a crash.  [Len] of a field that has none crashes. *)
Definition set_int (ix : pindex) (v : mval) : option Z := match ix with NoIndex => Some (to_int (float_of v)) | _ => None end.
Definition set_str (ix : pindex) (old : string) (v : mval) : option string :=
  match ix with
  | NoIndex => Some (string_of v)
  | Index n => if n <? Z.of_nat (String.length old) then None else Some (string_of v)
  | BadIndex => None
  end.
Definition set_ref (ix : pindex) (r : option sref) : option (option sref) := match ix with NoIndex => Some r | _ => None end.
Definition coord (prop : list string) : string := match prop with [_; c] => c | _ => "" end.
Definition set_v3 (ix : pindex) (prop : list string) (v : mval) (w : vec3 T) : option (vec3 T) :=
  match ix with
  | NoIndex => Some (if String.eqb (coord prop) "x" then mkV3 (float_of v) (vy w) (vz w)
                     else if String.eqb (coord prop) "y" then mkV3 (vx w) (float_of v) (vz w)
                     else if String.eqb (coord prop) "z" then mkV3 (vx w) (vy w) (float_of v)
                     else w)
  | _ => None
  end.
Definition set_v4 (ix : pindex) (prop : list string) (v : mval) (w : vec4 T) : option (vec4 T) :=
  match ix with
  | NoIndex => Some (if String.eqb (coord prop) "x" then mkV4 (float_of v) (qy w) (qz w) (qw w)
                     else if String.eqb (coord prop) "y" then mkV4 (qx w) (float_of v) (qz w) (qw w)
                     else if String.eqb (coord prop) "z" then mkV4 (qx w) (qy w) (float_of v) (qw w)
                     else if String.eqb (coord prop) "w" then mkV4 (qx w) (qy w) (qz w) (float_of v)
                     else w)
  | _ => None
  end.
Fixpoint set_nth {A : Type} (n : nat) (x : A) (l : list A) : list A :=
  match l, n with
  | [], _ => []
  | _ :: r, O => x :: r
  | a :: r, S k => a :: set_nth k x r
  end.
(** A slice of references. *)
Definition set_refs (ix : pindex) (r : option sref) (l : list (option sref)) : option (list (option sref)) :=
  match ix with
  | NoIndex => Some l
  | Index n => if n <? Z.of_nat (length l) then if n <? 0 then None else Some (set_nth (Z.to_nat n) r l) else Some l
  | BadIndex => None
  end.
(** A field that is not set: a slice of other values, or a plain [Ref]. *)
Definition keep_slice (ix : pindex) : option unit :=
  match ix with Index n => if (n <? 0) then None else Some tt | NoIndex => Some tt | BadIndex => None end.
Definition keep_plain (ix : pindex) : option unit := match ix with NoIndex => Some tt | _ => None end.

Definition omap {A B : Type} (f : A -> B) (o : option A) : option B := match o with Some a => Some (f a) | None => None end.
(** unity_scene.go 130-186, one modification of one element; fields are found by the names of their yaml tags, those of [BaseComponent] are not. *)
Definition modify (m : pmod) (e : elem) : option elem :=
  let prop := split "."%char (pmPath m) in
  let is := String.eqb (hd "" prop) in
  let ix := array_index prop in
  let v := pmValue m in
  match e with
  | EGo g =>
      if is "m_Name" then omap (fun s => EGo (mkUG s (ugActive g) (ugTag g) (ugComps g) (ugCorr g) (ugPrefab g))) (set_str ix (ugName g) v)
      else if is "m_IsActive" then omap (fun n => EGo (mkUG (ugName g) n (ugTag g) (ugComps g) (ugCorr g) (ugPrefab g))) (set_int ix v)
      else if is "m_TagString" then omap (fun s => EGo (mkUG (ugName g) (ugActive g) s (ugComps g) (ugCorr g) (ugPrefab g))) (set_str ix (ugTag g) v)
      else if is "m_Component" then omap (fun _ => e) (keep_slice ix)
      else if is "m_CorrespondingSourceObject" then omap (fun r => EGo (mkUG (ugName g) (ugActive g) (ugTag g) (ugComps g) r (ugPrefab g))) (set_ref ix (pmRef m))
      else if is "m_PrefabInstance" then omap (fun r => EGo (mkUG (ugName g) (ugActive g) (ugTag g) (ugComps g) (ugCorr g) r)) (set_ref ix (pmRef m))
      else Some e
  | ETr t =>
      if is "m_Father" then omap (fun _ => e) (keep_plain ix)
      else if is "m_Children" then
        omap (fun c => ETr (mkUT (utGo t) (utCorr t) (utPrefab t) (utFather t) c (utRot t) (utPos t) (utScale t) (utHint t) (utRootOrder t))) (set_refs ix (pmRef m) (utChildren t))
      else if is "m_LocalRotation" then
        omap (fun q => ETr (mkUT (utGo t) (utCorr t) (utPrefab t) (utFather t) (utChildren t) q (utPos t) (utScale t) (utHint t) (utRootOrder t))) (set_v4 ix prop v (utRot t))
      else if is "m_LocalPosition" then
        omap (fun q => ETr (mkUT (utGo t) (utCorr t) (utPrefab t) (utFather t) (utChildren t) (utRot t) q (utScale t) (utHint t) (utRootOrder t))) (set_v3 ix prop v (utPos t))
      else if is "m_LocalScale" then
        omap (fun q => ETr (mkUT (utGo t) (utCorr t) (utPrefab t) (utFather t) (utChildren t) (utRot t) (utPos t) q (utHint t) (utRootOrder t))) (set_v3 ix prop v (utScale t))
      else if is "m_LocalEulerAnglesHint" then
        omap (fun q => ETr (mkUT (utGo t) (utCorr t) (utPrefab t) (utFather t) (utChildren t) (utRot t) (utPos t) (utScale t) q (utRootOrder t))) (set_v3 ix prop v (utHint t))
      else if is "m_RootOrder" then
        omap (fun n => ETr (mkUT (utGo t) (utCorr t) (utPrefab t) (utFather t) (utChildren t) (utRot t) (utPos t) (utScale t) (utHint t) n)) (set_int ix v)
      else Some e
  | ERend r =>
      if is "m_Enabled" then omap (fun n => ERend (mkUR n (urMaterials r))) (set_int ix v)
      else if is "m_Materials" then omap (fun l => ERend (mkUR (urEnabled r) l)) (set_refs ix (pmRef m) (urMaterials r))
      else Some e
  | _ => Some e
  end.

(** Changing the elements with a file id of the scene that [p] leads to. *)
Definition upd_elems (l : list (Z * elem)) (k : Z) (f : elem -> elem) : list (Z * elem) := map (fun x => if fst x =? k then (fst x, f (snd x)) else x) l.
Definition set_elems (s : scene) (l : list (Z * elem)) : scene := mkScene (scGuid s) l (scRoots s) (scAdded s).
Fixpoint update_at (p : list Z) (k : Z) (f : elem -> elem) (s : scene) : scene :=
  match p with
  | [] => set_elems s (upd_elems (scElems s) k f)
  | i :: q => set_elems s (upd_elems (scElems s) i (fun e => match e with EPrefab s' => EPrefab (update_at q k f s') | _ => e end))
  end.
(** unity_scene.go 115-187: targets are looked up by [GetElement], by their file id alone. *)
Fixpoint modify_all (ms : list pmod) (s : scene) : option scene :=
  match ms with
  | [] => Some s
  | m :: r =>
      match get_element2 s [] (pmTarget m) None with
      | None => modify_all r s
      | Some a =>
          match find_elem (scElems s) (snd a) with
          | Some e => match modify m e with
                      | Some e' => modify_all r (update_at [] (snd a) (fun _ => e') s)
                      | None => None
                      end
          | None => modify_all r s
          end
      end
  end.

(** ** Loading *)

(** Documents of a scene file; [None]: it cannot be decoded.  Prefab instances of the old form (Prefab) are skipped; others have the prefab, the parent transform and
    the modifications. *)
Record pinst := mkPI { piOld : bool; piSource : option sref; piParent : option sref; piMods : list pmod }.
Inductive udoc : Type := DGo (g : option ugo) | DTr (t : option utrans) | DRend (r : option urend) | DPrefab (i : option pinst) | DOther.
(** The result: a scene, an error, a crash, or out of fuel. *)
Inductive lres : Type := Loaded (s : scene) | LError | LCrash | LFuel.
(** The state of the loop: elements, objects, [addedChildren]. *)
Record lstate := mkLS { lsElems : list (Z * elem); lsObjs : list addr; lsAdded : list (sref * list addr) }.

Definition set_father (r : sref) (e : elem) : elem :=
  match e with ETr t => ETr (mkUT (utGo t) (utCorr t) (utPrefab t) r (utChildren t) (utRot t) (utPos t) (utScale t) (utHint t) (utRootOrder t)) | _ => e end.
Fixpoint add_to (l : list (sref * list addr)) (k : sref) (c : list addr) : list (sref * list addr) :=
  match l with
  | [] => [(k, c)]
  | (r, x) :: q => if sref_eqb r k then (r, x ++ c) :: q else (r, x) :: add_to q k c
  end.
(** unity_scene.go 99-114, 115-187 for the loaded prefab [s] at the instance [id]; [None]: a crash. *)
Definition place_prefab (guid : string) (id : Z) (i : pinst) (s : scene) (st : lstate) : option lstate :=
  match scRoots s with
  | [] => omap (fun s' => mkLS ((id, EPrefab s') :: lsElems st) (lsObjs st) (lsAdded st)) (modify_all (piMods i) s)
  | root :: _ =>
      match object_transform s root with
      | None => omap (fun s' => mkLS ((id, EPrefab s') :: lsElems st) (lsObjs st ++ [push id root]) (lsAdded st)) (modify_all (piMods i) s)
      | Some ta =>
          match piParent i with
          | None => None
          | Some par =>
              let father := mkSRef (srFile par) guid (srType par) in
              let s1 := update_at (fst ta) (snd ta) (set_father father) s in
              (* the components of the root are looked up in the scene of the prefab, once for each transform *)
              let n := match go_at s root with
                       | Some g => length (filter (fun c => match get_element2 s [] (Some c) (ugPrefab g) with Some a => match tr_at s a with Some _ => true | None => false end | None => false end) (ugComps g))
                       | None => O
                       end in
              let added := match n with O => lsAdded st | _ => add_to (lsAdded st) father (repeat (push id ta) n) end in
              omap (fun s' => mkLS ((id, EPrefab s') :: lsElems st) (lsObjs st ++ [push id root]) added) (modify_all (piMods i) s1)
          end
      end
  end.
(** [IsValid] of the father and of the source (unity_scene.go 207-213). *)
Definition is_root (s : scene) (a : addr) : bool :=
  match object_transform s a, go_at s a with
  | Some ta, Some g => match tr_at s ta with Some t => negb (valid (Some (utFather t))) && negb (valid (ugCorr g)) | None => false end
  | _, _ => false
  end.
(** [AddChild] (unity_components.go 98-109). *)
Definition add_child (s : scene) (parent child : addr) : scene :=
  if existsb (addr_eqb child) (get_children s parent) then s else mkScene (scGuid s) (scElems s) (scRoots s) (scAdded s ++ [(parent, child)]).
(** unity_scene.go 215-223, one key of the map. *)
Definition add_children (s : scene) (kc : sref * list addr) : scene :=
  match get_transform s [] (Some (fst kc)) None with
  | Some parent => fold_left (fun s c => add_child s parent c) (snd kc) s
  | None => s
  end.
(** The assets: the documents of the file with this GUID, if it can be found and read; the order of iterating over a map. *)
Variable files : string -> option (list (Z * udoc)).
Variable order : list (sref * list addr) -> list (sref * list addr).

Definition finish (guid : string) (st : lstate) : scene :=
  let s0 := mkScene guid (lsElems st) [] [] in
  let s1 := mkScene guid (lsElems st) (filter (is_root s0) (lsObjs st)) [] in
  fold_left add_children (order (lsAdded st)) s1.
Definition put (st : lstate) (id : Z) (e : elem) : lstate := mkLS ((id, e) :: lsElems st) (lsObjs st) (lsAdded st).
(** [LoadSceneAsset] (unity_scene.go 36-225).  The loop over the documents, given how to load prefabs. *)
Fixpoint load_docs (rec : string -> lres) (guid : string) (ds : list (Z * udoc)) (st : lstate) : lres :=
  match ds with
  | [] => Loaded (finish guid st)
  | (id, d) :: r =>
      match d with
      | DGo None => LCrash
      | DGo (Some g) => load_docs rec guid r (mkLS ((id, EGo g) :: lsElems st) (lsObjs st ++ [([], id)]) (lsAdded st))
      | DTr (Some t) => load_docs rec guid r (put st id (ETr t))
      | DRend (Some x) => load_docs rec guid r (put st id (ERend x))
      | DTr None | DRend None | DOther => load_docs rec guid r (put st id EOther)
      | DPrefab None => load_docs rec guid r st
      | DPrefab (Some i) =>
          if piOld i || negb (valid (piSource i)) then load_docs rec guid r st
          else match rec (match piSource i with Some q => srGuid q | None => "" end) with
               | Loaded s => match place_prefab guid id i s st with Some st' => load_docs rec guid r st' | None => LCrash end
               | LError => load_docs rec guid r st
               | LCrash => LCrash
               | LFuel => LFuel
               end
      end
  end.
Fixpoint load (fuel : nat) (guid : string) : lres :=
  match fuel with
  | O => LFuel
  | S n => match files guid with
           | None => LError
           | Some ds => load_docs (load n) guid ds (mkLS [] [] [])
           end
  end.
End Scene.
Arguments elem : clear implicits.
Arguments scene : clear implicits.
Arguments utrans : clear implicits.
