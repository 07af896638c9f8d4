(** MMD motions as glTF animations: converter/glbanim.go, over exact reals.

    Go maps are lists in the order in which they happen to be iterated; the theorems hold for every order.  Log messages are left out. *)
From Coq Require Import String List ZArith Reals Bool.
From Verif.Model Require Import Num NumR Vec MqoDoc.
Import ListNotations.
Local Open Scope R_scope.

(** mqo/bone_plugin.go:117-138, the fields used here; [abOff] is RotationOffset. *)
Record abone := mkAB { abID : Z; abName : string; abParent : Z; abPos : vec3 R; abOff : vec3 R }.
(** mmd/vmd_parser.go:57-63 and 65-70; frames are uint32. *)
Record bchan := mkBCh { bcTarget : string; bcFrames : list Z; bcRots : list (vec4 R); bcPoss : list (vec3 R) }.
Record mchan := mkMCh { mcTarget : string; mcFrames : list Z; mcWeights : list R }.

(** The contents of an accessor, by its type. *)
Inductive adata := AKeys (l : list R) | ARots (l : list (vec4 R)) | APoss (l : list (vec3 R)) | ABytes (l : list Z).
(** gltf.TRSRotation, TRSTranslation, TRSWeights *)
Inductive apath := PRotation | PTranslation | PWeights.
(** A sampler is its input and output accessor (interpolation is always linear); a channel its sampler, node and path. *)
Record aanim := mkAA { aaSamplers : list (nat * nat); aaChannels : list (nat * Z * apath) }.
(** The accessors of the document and the animation. *)
Record astate := mkAS { asAccs : list adata; asAnim : aanim }.
(** [modeler.Write...] appends an accessor and returns its index. *)
Definition write (s : astate) (d : adata) : astate * nat := (mkAS (asAccs s ++ [d]) (asAnim s), length (asAccs s)).
(** glbanim.go:119-131, 156-168 and 237-249 *)
Definition add_channel (s : astate) (keys out : nat) (node : Z) (p : apath) : astate :=
  let a := asAnim s in
  mkAS (asAccs s) (mkAA (aaSamplers a ++ [(keys, out)]) (aaChannels a ++ [(length (aaSamplers a), node, p)])).

(** glbanim.go:38-41: the node of a bone name; the last one in the order of iteration. *)
Definition node_of (bones : list (Z * abone)) (name : string) : option Z :=
  match last_index (fun p : Z * abone => String.eqb (abName (snd p)) name) bones with
  | Some i => option_map fst (nth_error bones i)
  | None => None
  end.
(** [bones[uint32(n)]] *)
Definition bone_at (bones : list (Z * abone)) (n : Z) : option abone := option_map snd (find (fun p : Z * abone => (fst p =? n)%Z) bones).
(** glbanim.go:43-46 *)
Definition by_id (bones : list (Z * abone)) (id : Z) : option abone :=
  match last_index (fun p : Z * abone => (abID (snd p) =? id)%Z) bones with
  | Some i => option_map snd (nth_error bones i)
  | None => None
  end.

(** glbanim.go:72, 77-82 *)
Definition q_offset (bones : list (Z * abone)) (b : abone) : vec4 R :=
  match by_id bones (abParent b) with
  | Some p => if Reqb (vx (abOff b)) (vx (abOff p)) then mkV4 0 0 0 1
              else let d := (vx (abOff p) - vx (abOff b)) * cos (vy (abOff p)) in mkV4 0 0 (sin (d / 2)) (cos (d / 2))
  | None => mkV4 0 0 0 1
  end.
(** glbanim.go:93-109 *)
Definition rot_key (off : vec3 R) (qo ms : vec4 R) : vec4 R :=
  let s := qmul ms qo in
  let r := mkV4 (- qx s) (- qy s) (qz s) (qw s) in
  let r := mkV4 (qx r * cos (vy off) - qz r * sin (vy off)) (qy r) (qx r * sin (vy off) + qz r * cos (vy off)) (qw r) in
  mkV4 (qx r * cos (vx off) - qy r * sin (vx off)) (qx r * sin (vx off) + qy r * cos (vx off)) (qz r) (qw r).
(** 80 * 0.001, glbanim.go:36 *)
Definition anim_scale : R := 8 / 100.
(** glbanim.go:136-152 *)
Definition pos_key (off pos s : vec3 R) : vec3 R :=
  let r := mkV3 (vx s * anim_scale) (vy s * anim_scale) (- vz s * anim_scale) in
  let r := mkV3 (vx r * cos (vy off) - vz r * sin (vy off)) (vy r) (vx r * sin (vy off) + vz r * cos (vy off)) in
  let r := mkV3 (vx r * cos (vx off) - vy r * sin (vx off)) (vx r * sin (vx off) + vy r * cos (vx off)) (vz r) in
  mkV3 (vx pos * (1 / 1000) + vx r) (vy pos * (1 / 1000) + vy r) (vz pos * (1 / 1000) + vz r).
Definition is_identity (q : vec4 R) : bool := Reqb (qx q) 0 && Reqb (qy q) 0 && Reqb (qz q) 0 && Reqb (qw q) 1.
Definition is_zero (v : vec3 R) : bool := Reqb (vx v) 0 && Reqb (vy v) 0 && Reqb (vz v) 0.
(** [float32(k)/30], glbanim.go:65-67 *)
Definition key_times (frames : list Z) : list R := map (fun k => IZR k / 30) frames.
(** glbanim.go:13-23 *)
Fixpoint keys_equal (a b : list Z) : bool :=
  match a, b with
  | [], [] => true
  | x :: a', y :: b' => (x =? y)%Z && keys_equal a' b'
  | _, _ => false
  end.

(** One turn of the loop, glbanim.go:57-180; [prev] is prevCh with prevKeysAcc. *)
Definition bone_step (bones : list (Z * abone)) (st : astate * option (list Z * nat)) (c : bchan) : astate * option (list Z * nat) :=
  let '(s, prev) := st in
  match node_of bones (bcTarget c) with
  | None => st
  | Some n =>
      let '(s, keys) := match prev with
                        | Some (fs, k) => if keys_equal (bcFrames c) fs then (s, k) else write s (AKeys (key_times (bcFrames c)))
                        | None => write s (AKeys (key_times (bcFrames c)))
                        end in
      let '(off, pos, qo) := match bone_at bones n with
                             | Some b => (abOff b, abPos b, q_offset bones b)
                             | None => (mkV3 0 0 0, mkV3 0 0 0, mkV4 0 0 0 1)
                             end in
      let rots := map (rot_key off qo) (bcRots c) in
      let s := if forallb is_identity rots then s
               else let '(s, out) := write s (ARots rots) in add_channel s keys out n PRotation in
      let s := if forallb is_zero (bcPoss c) then s
               else let '(s, out) := write s (APoss (map (pos_key off pos) (bcPoss c))) in add_channel s keys out n PTranslation in
      (s, Some (bcFrames c, keys))
  end.
Definition add_bone_channels (bones : list (Z * abone)) (bb : list bchan) (s : astate) : astate := fst (fold_left (bone_step bones) bb (s, None)).

(** ** Morphs *)

(** glbanim.go:185-202: per node the target names of its mesh ([None]: no mesh, no primitives or no names); name, node, index, number of targets. *)
Definition all_targets (nodes : list (option (list string))) : list (string * (nat * nat * nat)) :=
  flat_map (fun p : nat * option (list string) => match snd p with
                     | None => []
                     | Some names => map (fun q => (snd q, (fst p, fst q, length names))) (combine (seq 0 (length names)) names)
                     end) (combine (seq 0 (length nodes)) nodes).
(** [targets[name]]: the last one wins. *)
Definition target_of (nodes : list (option (list string))) (name : string) : option (nat * nat * nat) :=
  match last_index (fun p : string * (nat * nat * nat) => String.eqb (fst p) name) (all_targets nodes) with
  | Some i => option_map snd (nth_error (all_targets nodes) i)
  | None => None
  end.
Definition on_node (nodes : list (option (list string))) (n : nat) (m : mchan) : bool :=
  match target_of nodes (mcTarget m) with Some (k, _, _) => Nat.eqb k n | None => false end.
(** [uint8(v * 255)]: truncated towards zero, then the low byte (Go leaves values out of range to the platform). *)
Definition to_u8 (v : R) : Z := ((if Rltb v 0 then - Int_part (- v) else Int_part v) mod 256)%Z.
(** glbanim.go:227-229: the weights of one channel into the table; [None]: index out of range. *)
Fixpoint put_weights (size ti f : nat) (ws : list R) (t : list Z) : option (list Z) :=
  match ws with
  | [] => Some t
  | v :: r => if Nat.ltb (f * size + ti) (length t)
              then put_weights size ti (S f) r (firstn (f * size + ti) t ++ to_u8 (v * 255) :: skipn (S (f * size + ti)) t)
              else None
  end.
(** glbanim.go:222-230 *)
Fixpoint put_all (nodes : list (option (list string))) (count size : nat) (mm : list mchan) (t : list Z) : option (list Z) :=
  match mm with
  | [] => Some t
  | m :: r => if Nat.eqb (length (mcFrames m)) count
              then match target_of nodes (mcTarget m) with
                   | Some (_, ti, _) => match put_weights size ti 0 (mcWeights m) t with Some t' => put_all nodes count size r t' | None => None end
                   | None => None
                   end
              else put_all nodes count size r t
  end.
(** glbanim.go:212-250 for one node with its channels. *)
Definition morph_node (nodes : list (option (list string))) (mm : list mchan) (n : nat) (s : astate) : option astate :=
  match mm with
  | [] => Some s
  | m0 :: _ =>
      match target_of nodes (mcTarget m0) with
      | None => None
      | Some (_, _, size) =>
          let count := length (mcFrames m0) in
          match put_all nodes count size mm (repeat 0%Z (size * count)) with
          | None => None
          | Some t => let '(s, keys) := write s (AKeys (key_times (mcFrames m0))) in
                      let '(s, out) := write s (ABytes t) in
                      Some (add_channel s keys out (Z.of_nat n) PWeights)
          end
      end
  end.
(** glbanim.go:204-251; the nodes are taken in their order in the document (the order of the map is random). *)
Definition add_morph_channels (nodes : list (option (list string))) (morphs : list mchan) (s : astate) : option astate :=
  fold_left (fun r n => match r with None => None | Some s => morph_node nodes (filter (on_node nodes n) morphs) n s end) (seq 0 (length nodes)) (Some s).
