(** [mqo/mqx_writer.go], [mqo/mqx_parser.go] and the files of a document ([mqo/mqo_writer.go], [mqo/mqo_parser.go]).
    encoding/xml is modelled on trees: an attribute or a text holds a value of its type, since numbers are printed in full and strings are escaped
    (control characters, which encoding/xml replaces, are left out). *)
From Coq Require Import String Ascii List ZArith Bool.
From Verif.Model Require Import Num Vec Matrix Mqo MqoDoc MqoText MqoLex Cli.
Import ListNotations.
Local Open Scope string_scope.
Local Open Scope list_scope.

Section Mqx.
Context {T : Type} {N : Num T} {X : TextNum T}.

(** Values of attributes and texts, and elements. *)
Inductive xval := XInt (z : Z) | XNum (x : T) | XStr (s : string) | XBool (b : bool) | XVec (v : vec3 T).
Inductive xelem := El (name : string) (attrs : list (string * xval)) (kids : list xelem) (text : option xval).
Definition el_name (e : xelem) : string := match e with El n _ _ _ => n end.
Definition el_attrs (e : xelem) : list (string * xval) := match e with El _ a _ _ => a end.
Definition el_kids (e : xelem) : list xelem := match e with El _ _ k _ => k end.

(** ** The plugins: mqo/bone_plugin.go, mqo/morph_plugin.go, mqo/physics_plugin.go *)
(** [BoneIK] (176-182) and [Bone] (117-138), without the fields for internal use. *)
Record boneik := mkIK { ikChain : Z; ikName : string; ikTip : string }.
Record qbone := mkQB { qbID : Z; qbName : string; qbGroup : Z; qbParent : Z; qbPos : vec3 T; qbMovable : Z; qbHide : Z; qbDummy : Z; qbColor : string;
  qbUp : option (vec3 T); qbRot : option (vec3 T); qbIK : option boneik; qbWeights : list (Z * list (Z * T)) }.
(** [BoneOld] (64-99), with the numbers rtX to minAngP in a list. *)
Record oldbone := mkOB { obID : Z; obName : string; obGroup : Z; obDummy : Z; obNums : list T; obParent : Z; obChildren : list Z; obWeights : list (Z * Z * T) }.
(** [BonePose] (188-208), with its numbers in a list. *)
Record bonepose := mkBP { bpID : Z; bpName : string; bpNums : list T }.
(** [BonePlugin] (12-20). *)
Record boneplugin := mkBPl { plName : string; plOld : list oldbone; plLimit : Z; plBones : list qbone; plPoses : list bonepose; plObj : list Z }.
(** [MorphPlugin] (mqo/morph_plugin.go 8-13), targets with their parameter. *)
Record morphplugin := mkMPl { mpName : string; mpTargets : list (string * list (string * Z)) }.
(** [PhysicsShape], [PhysicsBody] and [PhysicsJointConstraint] (mqo/physics_plugin.go 30-69), [PhysicsPlugin] (10-16). *)
Record qshape := mkQS { qsType : string; qsSize : vec3 T; qsPos : vec3 T; qsRot : vec3 T }.
Record qbody := mkQBody { qyShapes : list qshape; qyMass : T; qyKinematic : bool; qyGroup : Z; qyMask : Z; qyRestitution : T; qyFriction : T; qyLinear : T; qyAngular : T;
  qyName : string; qyBone : Z; qyObj : Z }.
Record qjoint := mkQJ { qjType : string; qjBody1 : Z; qjBody2 : Z; qjName : string; qjPos : vec3 T; qjRot : vec3 T; qjLinear : vec3 T; qjAngular : vec3 T }.
Record physplugin := mkPPl { ppName : string; ppBodies : list qbody; ppJoints : list qjoint }.
Inductive plugin := PBones (p : boneplugin) | PMorphs (p : morphplugin) | PPhysics (p : physplugin).

(** ** Writing: encoding/xml on these types *)
Definition a_int (n : string) (z : Z) : string * xval := (n, XInt z).
Definition a_num (n : string) (x : T) : string * xval := (n, XNum x).
Definition a_str (n : string) (s : string) : string * xval := (n, XStr s).
(** Attributes with omitempty. *)
Definition o_int (n : string) (z : Z) : list (string * xval) := if (z =? 0)%Z then [] else [(n, XInt z)].
Definition o_str (n : string) (s : string) : list (string * xval) := if String.eqb s "" then [] else [(n, XStr s)].
Definition o_vec (n : string) (v : option (vec3 T)) : list (string * xval) := match v with Some v => [(n, XVec v)] | None => [] end.
Definition leaf (n : string) (a : list (string * xval)) : xelem := El n a [] None.
Definition texted (n : string) (v : xval) : xelem := El n [] [] (Some v).
Definition group (n : string) (k : list xelem) : xelem := El n [] k None.

(** bone_plugin.go 117-175. *)
Definition w_weight (w : Z * list (Z * T)) : xelem := El "W" [a_int "obj" (fst w)] (map (fun p => leaf "V" [a_int "v" (fst p); a_num "w" (snd p)]) (snd w)) None.
Definition w_ik (k : boneik) : xelem := leaf "IK" [a_int "chain" (ikChain k); a_str "name" (ikName k); a_str "tipName" (ikTip k)].
Definition bone_attrs (b : qbone) : list (string * xval) :=
  [a_int "id" (qbID b); a_str "name" (qbName b)] ++ o_int "group" (qbGroup b) ++ o_int "parent" (qbParent b) ++ [("pos", XVec (qbPos b))] ++
  o_int "movable" (qbMovable b) ++ o_int "hide" (qbHide b) ++ o_int "dummy" (qbDummy b) ++ o_str "color" (qbColor b) ++ o_vec "upVector" (qbUp b) ++ o_vec "rotate" (qbRot b).
Definition w_bone (b : qbone) : xelem := El "Bone" (bone_attrs b) (match qbIK b with Some k => [w_ik k] | None => [] end ++ map w_weight (qbWeights b)) None.
(** bone_plugin.go 64-99, 54-62. *)
Definition old_nums : list string :=
  ["rtX"; "rtY"; "rtZ"; "tpX"; "tpY"; "tpZ"; "mvX"; "mvY"; "mvZ"; "rotB"; "rotH"; "rotP"; "sc"; "maxAngB"; "maxAngH"; "maxAngP"; "minAngB"; "minAngH"; "minAngP"].
Definition nums (names : list string) (l : list T) : list (string * xval) := map (fun p => a_num (fst p) (snd p)) (combine names l).
Definition w_old (b : oldbone) : xelem :=
  El "Bone" ([a_int "id" (obID b); a_str "name" (obName b); a_int "group" (obGroup b); a_int "isDummy" (obDummy b)] ++ nums old_nums (obNums b))
    (leaf "P" [a_int "id" (obParent b)] :: map (fun c => leaf "C" [a_int "id" c]) (obChildren b) ++
     map (fun w => leaf "W" [a_int "oi" (fst (fst w)); a_int "vi" (snd (fst w)); a_num "w" (snd w)]) (obWeights b)) None.
(** bone_plugin.go 184-208. *)
Definition pose_nums : list string := ["mvX"; "mvY"; "mvZ"; "rotB"; "rotH"; "rotP"; "scB"; "scH"; "scP"].
Definition w_pose (p : bonepose) : xelem := leaf "Pose" ([a_int "id" (bpID p); a_str "name" (bpName p)] ++ nums pose_nums (bpNums p)).
(** bone_plugin.go 12-20, 46-52, 112-115. *)
Definition bone_tag : string := "Plugin.56A31D20.71F282AB".
Definition w_bones (p : boneplugin) : xelem :=
  El bone_tag [a_str "name" (plName p)]
    ([group "BoneSet" (map w_old (plOld p)); El "BoneSet2" [a_int "limit" (plLimit p)] (map w_bone (plBones p)) None; group "Poses" (map w_pose (plPoses p))] ++
     map (fun id => leaf "Obj" [a_int "id" id]) (plObj p)) None.
(** mqo/morph_plugin.go 8-13, 30-42. *)
Definition morph_tag : string := "Plugin.56A31D20.C452C6DB".
Definition w_targets (t : string * list (string * Z)) : xelem :=
  El "TargetList" [a_str "base" (fst t)] (map (fun p => leaf "Target" [a_str "name" (fst p); a_int "param" (snd p)]) (snd t)) None.
Definition w_morphs (p : morphplugin) : xelem := El morph_tag [a_str "name" (mpName p)] [group "MorphSet" (map w_targets (mpTargets p))] None.
(** mqo/physics_plugin.go 10-69. *)
Definition phys_tag : string := "Plugin.7A6E6962.43594850".
Definition w_vec (n : string) (v : vec3 T) : xelem := leaf n [a_num "x" (vx v); a_num "y" (vy v); a_num "z" (vz v)].
Definition w_shape (s : qshape) : xelem := El "Shape" [a_str "type" (qsType s)] [w_vec "Size" (qsSize s); w_vec "Position" (qsPos s); w_vec "Rotation" (qsRot s)] None.
Definition w_body (b : qbody) : xelem :=
  El "Body" ([a_num "mass" (qyMass b)] ++ (if qyKinematic b then [("kinematic", XBool true)] else []) ++ o_str "name" (qyName b) ++ o_int "targetBone" (qyBone b) ++ o_int "targetObj" (qyObj b))
    [group "Shapes" (map w_shape (qyShapes b)); texted "CollisionGroup" (XInt (qyGroup b)); texted "CollisionMask" (XInt (qyMask b));
     texted "Restitution" (XNum (qyRestitution b)); texted "Friction" (XNum (qyFriction b)); texted "LinearDamping" (XNum (qyLinear b)); texted "AngularDamping" (XNum (qyAngular b))] None.
Definition w_joint (j : qjoint) : xelem :=
  El "Joint" (o_str "type" (qjType j) ++ o_int "body1" (qjBody1 j) ++ o_int "body2" (qjBody2 j) ++ o_str "name" (qjName j))
    [w_vec "Position" (qjPos j); w_vec "Rotation" (qjRot j); w_vec "LinerSpring" (qjLinear j); w_vec "AngulerSpring" (qjAngular j)] None.
Definition w_physics (p : physplugin) : xelem :=
  El phys_tag [a_str "name" (ppName p)] [group "Bodies" (map w_body (ppBodies p)); group "Constraints" (map w_joint (ppJoints p))] None.

(** [PreSerialize] of the plugins (bone_plugin.go 210-234; the others do nothing). *)
Definition plugin_weighted (p : boneplugin) : list Z :=
  flat_map (fun b => map fst (qbWeights b)) (plBones p) ++ flat_map (fun b => map (fun w => fst (fst w)) (obWeights b)) (plOld p).
Definition pre_plugin (os : list (object T)) (p : plugin) : plugin :=
  match p with
  | PBones b => PBones (mkBPl "Bone" (plOld b) (plLimit b) (plBones b) (plPoses b) (pre_serialize (plugin_weighted b) os (plObj b)))
  | q => q
  end.
Definition w_plugin (p : plugin) : xelem := match p with PBones b => w_bones b | PMorphs m => w_morphs m | PPhysics f => w_physics f end.
(** [WriteMQX] (mqx_writer.go 15-25). *)
Definition doc_tag : string := "MetasequoiaDocument".
Definition write_mqx (os : list (object T)) (ps : list plugin) (name : string) : xelem :=
  El doc_tag [] (texted "IncludedBy" (XStr name) :: map w_plugin (map (pre_plugin os) ps)) None.

(** ** Reading.  [None]: an attribute of another type, which is an error.  Unknown attributes and elements are skipped; an element that occurs again
    continues the first. *)
Fixpoint lookup (n : string) (a : list (string * xval)) : option xval :=
  match a with
  | [] => None
  | (m, v) :: r => match lookup n r with Some x => Some x | None => if String.eqb m n then Some v else None end
  end.
Definition g_int (n : string) (a : list (string * xval)) : option Z := match lookup n a with None => Some 0%Z | Some (XInt z) => Some z | Some _ => None end.
Definition g_num (n : string) (a : list (string * xval)) : option T := match lookup n a with None => Some nzero | Some (XNum x) => Some x | Some _ => None end.
Definition g_str (n : string) (a : list (string * xval)) : option string := match lookup n a with None => Some "" | Some (XStr s) => Some s | Some _ => None end.
Definition g_opt (n : string) (a : list (string * xval)) : option (option (vec3 T)) :=
  match lookup n a with None => Some None | Some (XVec v) => Some (Some v) | Some _ => None end.
Definition g_vec (n : string) (a : list (string * xval)) : option (vec3 T) :=
  match g_opt n a with Some (Some v) => Some v | Some None => Some (mkV3 nzero nzero nzero) | None => None end.
Definition named (n : string) (e : xelem) : bool := String.eqb (el_name e) n.
Definition kids_of (n : string) (k : list xelem) : list xelem := filter (named n) k.
(** The elements of a name as one. *)
Definition merge_attrs (n : string) (k : list xelem) : list (string * xval) := flat_map el_attrs (kids_of n k).
Definition merge_kids (n : string) (k : list xelem) : list xelem := flat_map el_kids (kids_of n k).
Definition bind {A B} (o : option A) (f : A -> option B) : option B := match o with Some a => f a | None => None end.
Fixpoint every {A B} (f : A -> option B) (l : list A) : option (list B) :=
  match l with [] => Some [] | a :: r => bind (f a) (fun b => bind (every f r) (fun bs => Some (b :: bs))) end.
Notation "'do' x <- a ; b" := (bind a (fun x => b)) (at level 60, x name, right associativity).

Definition r_vertex (e : xelem) : option (Z * T) := do v <- g_int "v" (el_attrs e); do w <- g_num "w" (el_attrs e); Some (v, w).
Definition r_weight (e : xelem) : option (Z * list (Z * T)) := do o <- g_int "obj" (el_attrs e); do l <- every r_vertex (kids_of "V" (el_kids e)); Some (o, l).
Definition r_ik (a : list (string * xval)) : option boneik := do c <- g_int "chain" a; do n <- g_str "name" a; do t <- g_str "tipName" a; Some (mkIK c n t).
Definition r_bone (e : xelem) : option qbone :=
  let a := el_attrs e in
  do id <- g_int "id" a; do name <- g_str "name" a; do grp <- g_int "group" a; do par <- g_int "parent" a; do pos <- g_vec "pos" a; do mv <- g_int "movable" a;
  do hide <- g_int "hide" a; do dummy <- g_int "dummy" a; do col <- g_str "color" a; do up <- g_opt "upVector" a; do rot <- g_opt "rotate" a;
  do ik <- match kids_of "IK" (el_kids e) with [] => Some None | _ => do k <- r_ik (merge_attrs "IK" (el_kids e)); Some (Some k) end;
  do w <- every r_weight (kids_of "W" (el_kids e));
  Some (mkQB id name grp par pos mv hide dummy col up rot ik w).
Definition r_oldweight (e : xelem) : option (Z * Z * T) := let a := el_attrs e in do o <- g_int "oi" a; do v <- g_int "vi" a; do w <- g_num "w" a; Some (o, v, w).
Definition r_old (e : xelem) : option oldbone :=
  let a := el_attrs e in
  do id <- g_int "id" a; do name <- g_str "name" a; do grp <- g_int "group" a; do dummy <- g_int "isDummy" a; do ns <- every (fun n => g_num n a) old_nums;
  do par <- g_int "id" (merge_attrs "P" (el_kids e)); do cs <- every (fun c => g_int "id" (el_attrs c)) (kids_of "C" (el_kids e));
  do ws <- every r_oldweight (kids_of "W" (el_kids e)); Some (mkOB id name grp dummy ns par cs ws).
Definition r_pose (e : xelem) : option bonepose :=
  let a := el_attrs e in do id <- g_int "id" a; do name <- g_str "name" a; do ns <- every (fun n => g_num n a) pose_nums; Some (mkBP id name ns).
Definition r_bones (a : list (string * xval)) (k : list xelem) : option boneplugin :=
  do name <- g_str "name" a; do old <- every r_old (kids_of "Bone" (merge_kids "BoneSet" k)); do lim <- g_int "limit" (merge_attrs "BoneSet2" k);
  do bs <- every r_bone (kids_of "Bone" (merge_kids "BoneSet2" k)); do ps <- every r_pose (kids_of "Pose" (merge_kids "Poses" k));
  do obj <- every (fun c => g_int "id" (el_attrs c)) (kids_of "Obj" k); Some (mkBPl name old lim bs ps obj).
Definition r_target (e : xelem) : option (string * Z) := do n <- g_str "name" (el_attrs e); do p <- g_int "param" (el_attrs e); Some (n, p).
Definition r_targets (e : xelem) : option (string * list (string * Z)) := do b <- g_str "base" (el_attrs e); do l <- every r_target (kids_of "Target" (el_kids e)); Some (b, l).
Definition r_morphs (a : list (string * xval)) (k : list xelem) : option morphplugin :=
  do name <- g_str "name" a; do l <- every r_targets (kids_of "TargetList" (merge_kids "MorphSet" k)); Some (mkMPl name l).
(** [ReadMQX] (mqx_parser.go 8-26): bones and morphs are read. *)
Definition optional {A} (tag : string) (k : list xelem) (r : list (string * xval) -> list xelem -> option A) : option (option A) :=
  match kids_of tag k with [] => Some None | _ => do p <- r (merge_attrs tag k) (merge_kids tag k); Some (Some p) end.
Definition listed {A B} (f : A -> B) (o : option A) : list B := match o with Some a => [f a] | None => [] end.
Definition read_mqx (e : xelem) : option (list plugin) :=
  if named doc_tag e then
    do b <- optional bone_tag (el_kids e) r_bones; do m <- optional morph_tag (el_kids e) r_morphs; Some (listed PBones b ++ listed PMorphs m)
  else None.

(** ** Files.  A path is a directory ([filepath.Dir]) and a name in it ([filepath.Base], not empty and without slashes). *)
Inductive content := FText (s : string) | FXml (e : xelem) | FZip (l : list (string * content)).
Definition files := string -> string -> option content.
Definition put (fs : files) (dir base : string) (c : content) : files :=
  fun d b => if String.eqb d dir && String.eqb b base then Some c else fs d b.
(** A name without its [filepath.Ext]. *)
Definition stem (base : string) : string := substring 0 (String.length base - String.length (ext base)) base.
(** [strings.HasSuffix]. *)
Definition has_suffix (suf s : string) : bool := (String.length suf <=? String.length s)%nat && String.eqb (substring (String.length s - String.length suf) (String.length suf) s) suf.
(** The name in IncludeXml (mqo_writer.go 42-47); the path is not empty here. *)
Definition mqx_name (base : string) (ps : list plugin) : option string := match ps with [] => None | _ => Some (stem base ++ ".mqx")%string end.

(** [Save] (mqo_writer.go 269-280) and [SaveMQOZ] (246-267) with the part of [WriteMQO] that writes the second file (237-241).
    [creatable]: [os.Create] succeeds.  [None]: an error is reported. *)
Definition save (creatable : string -> string -> bool) (dir base : string) (sc : option (scene T)) (d : document T) (ps : list plugin) (fs : files) : option files :=
  if negb (creatable dir base) then None
  else if has_suffix ".mqoz" base then
    let td := mkTD (mqx_name base ps) sc d in
    let mqx := match mqx_name base ps with Some f => [(f, FXml (write_mqx (dObjects d) ps base))] | None => [] end in
    Some (put fs dir base (FZip ((stem base ++ ".mqo", FText (write_text td))%string :: mqx)))
  else
    match fix_names d with
    | None => None
    | Some d =>
        let fs := put fs dir base (FText (write_text (mkTD (mqx_name base ps) sc d))) in
        Some match mqx_name base ps with
             | Some f => if creatable dir f then put fs dir f (FXml (write_mqx (dObjects d) ps base)) else fs
             | None => fs
             end
    end.

(** The end of [Parse] (mqo_parser.go 389-397). *)
Definition read_plugins (open : string -> option content) (td : text_doc T) : list plugin :=
  match tdInclude td with
  | None => []
  | Some f => match open f with
              | Some (FXml e) => match read_mqx e with Some ps => ps | None => [] end
              | _ => []
              end
  end.
Definition entry (l : list (string * content)) (p : string -> bool) : option content := option_map snd (find (fun e => p (fst e)) l).
(** [Load] (mqo_parser.go 429-440) and [LoadMQOZ] (401-427). *)
Definition parse_file (c : option content) (open : string -> option content) : option (text_doc T * list plugin) :=
  match c with
  | Some (FText s) => match parse_text s with Some td => Some (td, read_plugins open td) | None => None end
  | _ => None
  end.
Definition load (dir base : string) (fs : files) : option (text_doc T * list plugin) :=
  if has_suffix ".mqoz" base then
    match fs dir base with
    | Some (FZip l) => parse_file (entry l (has_suffix ".mqo")) (fun f => entry l (String.eqb f))
    | _ => None
    end
  else parse_file (fs dir base) (fs dir).
End Mqx.
Arguments xval : clear implicits.
Arguments xelem : clear implicits.
Arguments qbone : clear implicits.
Arguments oldbone : clear implicits.
Arguments bonepose : clear implicits.
Arguments boneplugin : clear implicits.
Arguments qshape : clear implicits.
Arguments qbody : clear implicits.
Arguments qjoint : clear implicits.
Arguments physplugin : clear implicits.
Arguments plugin : clear implicits.
Arguments content : clear implicits.
Arguments files : clear implicits.
