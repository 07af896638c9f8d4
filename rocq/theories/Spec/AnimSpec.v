(** What an exported animation says, and what it should say (C85, C86). *)
From Coq Require Import String List ZArith Reals Bool.
From Verif.Model Require Import Num NumR Vec GlbAnim.
From Verif.Spec Require Import GeomSpec.
Import ListNotations.
Local Open Scope R_scope.

(** A channel as a player reads it: node, path, times and values. *)
Definition entry : Type := Z * apath * list R * adata.
Definition read_channel (s : astate) (ch : nat * Z * apath) : option entry :=
  let '(k, n, p) := ch in
  match nth_error (aaSamplers (asAnim s)) k with
  | Some (i, o) => match nth_error (asAccs s) i, nth_error (asAccs s) o with
                   | Some (AKeys ts), Some d => Some (n, p, ts, d)
                   | _, _ => None
                   end
  | None => None
  end.
(** All channels. *)
Definition plays (s : astate) (es : list entry) : Prop := map (read_channel s) (aaChannels (asAnim s)) = map Some es.

(** From MMD space to the space of the exported model: z is mirrored, then the model was turned by -rot180 (about y) and by -autotpose (about z). *)
Definition mirror_z (v : vec3 R) : vec3 R := mkV3 (vx v) (vy v) (- vz v).
Definition to_doc (off v : vec3 R) : vec3 R := turn_z (vx off) (turn_y (- vy off) (mirror_z v)).
(** The rotation [r] does in the model what [q] does in MMD space. *)
Definition same_motion (off : vec3 R) (q r : vec4 R) : Prop := forall v, qapply r (to_doc off v) = to_doc off (qapply q v).
(** 30 frames are a second. *)
Definition seconds (frames : list Z) : list R := map (fun k => IZR k / 30) frames.
(** The place of a bone when it is moved by [p]: 80 units of the model are one of MMD, 1000 of glTF. *)
Definition moved_by (off pos p : vec3 R) : vec3 R := v3add (v3scale pos (1 / 1000)) (v3scale (to_doc off p) (8 / 100)).

(** What one channel of a motion becomes; [q] is composed with every rotation. *)
Definition exported (n : Z) (off pos : vec3 R) (q : vec4 R) (c : bchan) (es : list entry) : Prop :=
  exists rs er et, es = er ++ et /\ Forall2 (fun ms r => same_motion off (qmul ms q) r) (bcRots c) rs /\
    (er = [] /\ Forall (fun r => r = mkV4 0 0 0 1) rs \/ er = [(n, PRotation, seconds (bcFrames c), ARots rs)]) /\
    (et = [] /\ Forall (fun p => p = mkV3 0 0 0) (bcPoss c) \/ et = [(n, PTranslation, seconds (bcFrames c), APoss (map (moved_by off pos) (bcPoss c)))]).
(** The correction between a bone and its parent, if they were turned differently: a turn about z. *)
Definition correction (bones : list (Z * abone)) (b : abone) (q : vec4 R) : Prop :=
  (forall n p, In (n, p) bones -> abID p = abParent b -> q = if Req_EM_T (vx (abOff b)) (vx (abOff p)) then mkV4 0 0 0 1 else q_turn_z ((vx (abOff p) - vx (abOff b)) * cos (vy (abOff p)))) /\
  ((forall n p, In (n, p) bones -> abID p <> abParent b) -> q = mkV4 0 0 0 1).
Inductive all_exported (bones : list (Z * abone)) : list bchan -> list entry -> Prop :=
| ex_nil : all_exported bones [] []
| ex_none c bb es : (forall n b, In (n, b) bones -> abName b <> bcTarget c) -> all_exported bones bb es -> all_exported bones (c :: bb) es
| ex_bone c bb es n b q e : In (n, b) bones -> abName b = bcTarget c -> correction bones b q -> exported n (abOff b) (abPos b) q c e -> all_exported bones bb es -> all_exported bones (c :: bb) (e ++ es).
(** Names, ids and nodes tell bones apart. *)
Definition distinct_bones (bones : list (Z * abone)) : Prop := NoDup (map fst bones) /\ NoDup (map (fun p => abName (snd p)) bones) /\ NoDup (map (fun p => abID (snd p)) bones).

(** ** Morphs (C86) *)

(** The place of a morph target: the mesh of a node and the index among its targets. *)
Definition has_target (nodes : list (option (list string))) (name : string) (n ti size : nat) : Prop :=
  exists names, nth_error nodes n = Some (Some names) /\ nth_error names ti = Some name /\ size = length names.
Definition unique_targets (nodes : list (option (list string))) : Prop :=
  forall name n ti s n' ti' s', has_target nodes name n ti s -> has_target nodes name n' ti' s' -> n = n' /\ ti = ti'.
(** A weight as a byte: 255 is 1; the parts lost are less than a step. *)
Definition is_byte (v : R) (b : Z) : Prop := (0 <= b <= 255)%Z /\ (0 <= v <= 1 -> IZR b / 255 <= v < (IZR b + 1) / 255).
(** The table of weights of a node: for every key all its targets. *)
Definition is_table (nodes : list (option (list string))) (morphs : list mchan) (n count size : nat) (t : list Z) : Prop :=
  length t = (size * count)%nat /\ forall f ti, (f < count)%nat -> (ti < size)%nat ->
    (forall m v, In m morphs -> has_target nodes (mcTarget m) n ti size -> nth_error (mcWeights m) f = Some v -> exists b, nth_error t (f * size + ti) = Some b /\ is_byte v b) /\
    ((forall m, In m morphs -> ~ has_target nodes (mcTarget m) n ti size) -> nth_error t (f * size + ti) = Some 0%Z).
Definition node_exported (nodes : list (option (list string))) (morphs : list mchan) (n : nat) (es : list entry) : Prop :=
  (es = [] /\ forall m ti s, In m morphs -> ~ has_target nodes (mcTarget m) n ti s) \/
  exists fs size t, es = [(Z.of_nat n, PWeights, seconds fs, ABytes t)] /\ is_table nodes morphs n (length fs) size t /\
    (exists m ti, In m morphs /\ has_target nodes (mcTarget m) n ti size) /\ forall m ti s, In m morphs -> has_target nodes (mcTarget m) n ti s -> mcFrames m = fs.
(** The channels of the targets of one mesh have the same keys. *)
Definition same_keys (nodes : list (option (list string))) (morphs : list mchan) : Prop :=
  forall m m' n ti s ti' s', In m morphs -> In m' morphs -> has_target nodes (mcTarget m) n ti s -> has_target nodes (mcTarget m') n ti' s' -> mcFrames m = mcFrames m'.
