(** Document-level operations of [mqo/mqo.go], [mqo/morph_plugin.go], [mqo/bone_plugin.go]. *)
From Coq Require Import String DecimalString List ZArith Bool Arith.
From Verif.Model Require Import Num Vec Matrix Mqo.
Import ListNotations.

(** ** Names: mqo/mqo.go:65-88 *)

(** [fmt.Sprintf("%d", n)] for [n >= 0] *)
Definition dec (n : nat) : string := NilEmpty.string_of_uint (Nat.to_uint n).
(** [fmt.Sprintf("%s_%d", name, n)] *)
Definition suffixed (name : string) (n : nat) : string := (name ++ "_" ++ dec n)%string.
Definition str_mem (s : string) (l : list string) : bool := existsb (String.eqb s) l.

(** mqo/mqo.go:69-72; the unbounded search gets [fuel] steps *)
Fixpoint free_suffix (fuel : nat) (seen : list string) (name : string) (n : nat) : option string :=
  match fuel with
  | O => None
  | S f => if str_mem (suffixed name n) seen then free_suffix f seen name (S n)
           else Some (suffixed name n)
  end.
(** mqo/mqo.go:66-76 (77-87 is the same text for materials); [seen] is the set of names.
    [None]: the search did not end within the fuel (the theorem shows it always does). *)
Fixpoint fix_list (seen : list string) (names : list string) : option (list string) :=
  match names with
  | [] => Some []
  | nm :: r =>
      match (if str_mem nm seen then free_suffix (S (length seen)) seen nm 2 else Some nm) with
      | None => None
      | Some nm' => option_map (cons nm') (fix_list (nm' :: seen) r)
      end
  end.

Section Doc.
Context {T : Type} {N : Num T}.

(** Shader parameters, mqo/mqo.go:163-223 *)
Inductive param := PInt (z : Z) | PFloat (x : T) | PBool (b : bool) | PColor (c : list T) | PStr (s : string).
(** mqo/mqo.go:163-169; maps are association lists *)
Record matex2 := mkEx2 {
  exType : string; exName : string; exParams : list (string * param);
  exMapping : list (string * string); exMappingParams : list (string * list (string * param)) }.
(** mqo/mqo.go:102-124 *)
Record material := mkMat {
  mtName : string; mtUID : Z; mtColor : vec4 T;
  mtDiffuse : T; mtAmbient : T; mtEmission : T; mtSpecular : T; mtPower : T;
  mtTexture : string; mtBump : string; mtAlpha : string;
  mtEmissionColor : option (vec3 T); mtDouble : bool; mtShader : Z; mtEx2 : option matex2 }.
Definition set_mat_name (m : material) (n : string) : material :=
  mkMat n (mtUID m) (mtColor m) (mtDiffuse m) (mtAmbient m) (mtEmission m) (mtSpecular m) (mtPower m)
        (mtTexture m) (mtBump m) (mtAlpha m) (mtEmissionColor m) (mtDouble m) (mtShader m) (mtEx2 m).
Definition set_mat_color (m : material) (c : vec4 T) : material :=
  mkMat (mtName m) (mtUID m) c (mtDiffuse m) (mtAmbient m) (mtEmission m) (mtSpecular m) (mtPower m)
        (mtTexture m) (mtBump m) (mtAlpha m) (mtEmissionColor m) (mtDouble m) (mtShader m) (mtEx2 m).

(** mqo/mqo.go:15-21, without scene and plugins (modelled separately).  Objects and materials
    are pointers in the code; here they are identified by their position, i.e. the same
    pointer is assumed not to be listed twice. *)
Record document := mkDocument { dMaterials : list material; dObjects : list (object T) }.

(** mqo/mqo.go:65-88 *)
Definition fix_names (d : document) : option document :=
  match fix_list [] (map oName (dObjects d)), fix_list [] (map mtName (dMaterials d)) with
  | Some os, Some ms =>
      Some (mkDocument (map (fun p => set_mat_name (fst p) (snd p)) (combine (dMaterials d) ms))
                       (map (fun p => set_name (fst p) (snd p)) (combine (dObjects d) os)))
  | _, _ => None
  end.

(** ** Object ids: mqo/mqo.go:31-46 *)
Fixpoint fix_ids (i : Z) (os : list (object T)) : list (object T) :=
  match os with
  | [] => []
  | o :: r => (if oUID o =? 0 then set_uid o (i + 1) else o)%Z :: fix_ids (i + 1)%Z r
  end.
Definition fix_object_id (d : document) : document := mkDocument (dMaterials d) (fix_ids 0 (dObjects d)).
(** The index of the object returned; [None] is nil. *)
Fixpoint index_of_uid (os : list (object T)) (id : Z) : option nat :=
  match os with
  | [] => None
  | o :: r => if (oUID o =? id)%Z then Some O else option_map S (index_of_uid r id)
  end.
Definition get_object_by_id (d : document) (id : Z) : option (object T) :=
  match index_of_uid (dObjects d) id with Some i => nth_error (dObjects d) i | None => None end.

(** ** Vertex ids: mqo/mqo.go:325-333; the map is an association list *)
Fixpoint assoc (m : list (Z * Z)) (k : Z) : option Z :=
  match m with [] => None | (a, b) :: r => if (a =? k)%Z then Some b else assoc r k end.
Definition get_vertex_index_by_id (o : object T) (uid : Z) : Z :=
  match assoc (oVertexByUID o) uid with
  | Some v => v
  | None => if (uid <=? Z.of_nat (length (oVerts o)))%Z then uid - 1 else -1
  end%Z.

(** ** Morphs: mqo/morph_plugin.go *)

(** mqo/morph_plugin.go:34-42 *)
Record target_list := mkTL { tlBase : string; tlTargets : list string }.

(** [objByID[name]]: the last object of that name wins (mqo/morph_plugin.go:81-84) *)
Fixpoint last_index {A} (p : A -> bool) (l : list A) : option nat :=
  match l with
  | [] => None
  | x :: r => match last_index p r with
              | Some i => Some (S i)
              | None => if p x then Some O else None
              end
  end.
Definition obj_by_name (os : list (object T)) (name : string) : option nat :=
  last_index (fun o => String.eqb (oName o) name) os.

Definition list_upd {A} (l : list A) (i : nat) (f : A -> A) : list A :=
  firstn i l ++ match skipn i l with [] => [] | x :: r => f x :: r end.

(** mqo/morph_plugin.go:104-106 *)
Definition shift_verts (diff : list (vec3 T)) (o : object T) : object T :=
  set_verts o (map (fun p => v3add (fst p) (snd p)) (combine (oVerts o) diff)).

(** mqo/morph_plugin.go:95-107, the loop over the targets; [i] is the loop index *)
Fixpoint morph_loop (byname : string -> option nat) (base : nat) (target : nat) (n : nat)
    (diff : list (vec3 T)) (i : nat) (ts : list string) (os : list (object T)) : list (object T) :=
  match ts with
  | [] => os
  | t :: r =>
      let os' :=
        match (if Nat.eqb i target then Some base else byname t) with
        | None => os
        | Some k =>
            match nth_error os k with
            | Some o => if Nat.eqb (length (oVerts o)) n then list_upd os k (shift_verts diff) else os
            | None => os
            end
        end in
      morph_loop byname base target n diff (S i) r os'
  end.

(** mqo/morph_plugin.go:80-108; the result and whether anything was applied.
    [None] would be the index panic of [m.Target[target]]. *)
Definition morph_list_apply (os : list (object T)) (m : target_list) (target : nat) (value : T)
  : option (list (object T) * bool) :=
  match nth_error (tlTargets m) target with
  | None => None
  | Some tname =>
      match obj_by_name os (tlBase m), obj_by_name os tname with
      | Some b, Some t =>
          match nth_error os b, nth_error os t with
          | Some bo, Some to_ =>
              if Nat.eqb (length (oVerts bo)) (length (oVerts to_)) then
                let diff := map (fun p => v3scale (v3sub (fst p) (snd p)) value)
                                (combine (oVerts to_) (oVerts bo)) in
                Some (morph_loop (obj_by_name os) b target (length (oVerts to_)) diff 0 (tlTargets m) os, true)
              else Some (os, false)
          | _, _ => Some (os, false)
          end
      | _, _ => Some (os, false)
      end
  end.

(** mqo/morph_plugin.go:51-57: all lists, all targets of the given name *)
Fixpoint morph_targets (os : list (object T)) (m : target_list) (name : string) (value : T)
    (i : nat) (ts : list string) (updated : bool) : option (list (object T) * bool) :=
  match ts with
  | [] => Some (os, updated)
  | t :: r =>
      if String.eqb t name then
        match morph_list_apply os m i value with
        | None => None
        | Some (os', u) => morph_targets os' m name value (S i) r (u || updated)
        end
      else morph_targets os m name value (S i) r updated
  end.
Fixpoint morph_lists (os : list (object T)) (ms : list target_list) (name : string) (value : T)
    (updated : bool) : option (list (object T) * bool) :=
  match ms with
  | [] => Some (os, updated)
  | m :: r =>
      match morph_targets os m name value 0 (tlTargets m) updated with
      | None => None
      | Some (os', u) => morph_lists os' r name value u
      end
  end.

(** mqo/morph_plugin.go:62-78.  [m == nil] (line 71) is never true, so a missing target
    material is a nil dereference: [None]. *)
Definition blend (value : T) (a b : vec4 T) : vec4 T :=
  v4add (v4scale a (nsub none value)) (v4scale b value).
Definition morph_prefix (name : string) : string := ("$MORPH:" ++ name ++ ":")%string.
Definition strip_prefix (p s : string) : option string :=
  if String.prefix p s then Some (substring (String.length p) (String.length s - String.length p) s) else None.
Definition mat_by_name (names : list string) (name : string) : option nat :=
  last_index (fun n => String.eqb n name) names.
Fixpoint material_morph_loop (names : list string) (pre : string) (value : T) (is_ : list nat)
    (ms : list material) : option (list material) :=
  match is_ with
  | [] => Some ms
  | i :: r =>
      match nth_error ms i with
      | None => None
      | Some m =>
          match strip_prefix pre (mtName m) with
          | None => material_morph_loop names pre value r ms
          | Some tn =>
              match mat_by_name names tn with
              | None => None (* nil dereference *)
              | Some k => material_morph_loop names pre value r
                            (list_upd ms k (fun t => set_mat_color t (blend value (mtColor t) (mtColor m))))
              end
          end
      end
  end.
Definition apply_material_morph (ms : list material) (name : string) (value : T) : option (list material) :=
  material_morph_loop (map mtName ms) (morph_prefix name) value (seq 0 (length ms)) ms.

(** mqo/morph_plugin.go:50-60 *)
Definition morph_apply (morphs : list target_list) (d : document) (name : string) (value : T)
  : option (document * bool) :=
  match morph_lists (dObjects d) morphs name value false with
  | None => None
  | Some (os, u) =>
      match apply_material_morph (dMaterials d) name value with
      | None => None
      | Some ms => Some (mkDocument ms os, u)
      end
  end.

(** ** Bones: mqo/bone_plugin.go *)

(** mqo/bone_plugin.go:117-138, the fields used below; a weight entry is an object id with
    its (vertex id, weight) pairs (167-175) *)
Record bone := mkBone { bID : Z; bName : string; bParent : Z; bPos : vec3 T;
                        bWeights : list (Z * list (Z * T)) }.

(** mqo/bone_plugin.go:248-251: the last bone of an id wins; bones are identified by position *)
Definition bone_by_id (bones : list bone) (id : Z) : option nat :=
  last_index (fun b => (bID b =? id)%Z) bones.
Definition nmem (i : nat) (l : list nat) : bool := existsb (Nat.eqb i) l.

(** mqo/bone_plugin.go:246-260: the bones [boneFn] is called on, in call order (also the set
    [targetBones]); [base] is the position of [baseBone]. *)
Definition select_step (bones : list bone) (sel : list nat) (i : nat) : list nat :=
  match nth_error bones i with
  | None => sel
  | Some b =>
      if (0 <? bParent b)%Z &&
         match bone_by_id bones (bParent b) with Some p => nmem p sel | None => false end &&
         negb (nmem i sel)
      then sel ++ [i] else sel
  end.
Definition select_bones (bones : list bone) (base : nat) : list nat :=
  fold_left (select_step bones) (seq 0 (length bones)) [base].

(** ** PreSerialize: mqo/bone_plugin.go:210-234 *)

(** mqo/bone_plugin.go:213-223: the object ids weighted by a bone list *)
Definition weighted_objects (bones : list bone) : list Z := flat_map (fun b => map fst (bWeights b)) bones.
(** mqo/bone_plugin.go:225-233; [weighted] is the key set of [objs], [obj] is [p.Obj] *)
Definition pre_serialize (weighted : list Z) (os : list (object T)) (obj : list Z) : list Z :=
  obj ++ filter (fun id => existsb (Z.eqb id) weighted)
           (map (fun p => if (oUID (snd p) <=? 0)%Z then (Z.of_nat (fst p) + 1)%Z else oUID (snd p))
                (combine (seq 0 (length os)) os)).
End Doc.

Arguments material T : clear implicits.
Arguments document T : clear implicits.
Arguments matex2 T : clear implicits.
Arguments param T : clear implicits.
Arguments bone T : clear implicits.

(** ** World transforms: mqo/mqo.go:48-63.  [objs] lists (depth, local transform); the stack
    [(dd, dt)] is a list of pairs with the top first, bottom [(-1, one)]. *)
Section World.
Context {M : Type} (one : M) (mul : M -> M -> M).
(** mqo/mqo.go:54-57; the bottom entry is never popped ([len(dd) > 1]) *)
Fixpoint pop_le (d : Z) (st : list (Z * M)) : list (Z * M) :=
  match st with
  | (d', t) :: ((_ :: _) as r) => if (d' <=? d)%Z then pop_le d r else st
  | _ => st
  end.
Definition top (st : list (Z * M)) : M := match st with (_, t) :: _ => t | [] => one end.
Fixpoint world_loop (st : list (Z * M)) (objs : list (Z * M)) : list M :=
  match objs with
  | [] => []
  | (d, l) :: r =>
      let st' := pop_le d st in
      let w := mul (top st') l in
      w :: world_loop ((d, w) :: st') r
  end.
Definition world_transforms (objs : list (Z * M)) : list M := world_loop [((-1)%Z, one)] objs.
End World.
