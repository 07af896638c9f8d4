(** What the nodes of an FBX file say about its objects. *)
From Coq Require Import String Ascii List ZArith Bool.
From Verif.Model Require Import Codec Fbx.
Import ListNotations.
Local Open Scope list_scope.
Local Open Scope Z_scope.

(** A whole number, of any width, or a string at a place among the attributes. *)
Definition whole_at (n : node) (i : nat) (v : Z) : Prop :=
  exists a, nth_error (node_attrs n) i = Some a /\ (a = AI8 v \/ a = AI16 v \/ a = AI32 v \/ a = AI64 v).
Definition string_at (n : node) (i : nat) (s : bytes) : Prop := nth_error (node_attrs n) i = Some (AStr s) \/ nth_error (node_attrs n) i = Some (ARaw s).

(** Letters of the file format. *)
Definition oo : bytes := [79; 79].
Definition op : bytes := [79; 80].
Definition scene_binary : bytes := [83; 99; 101; 110; 101; 0; 1; 77; 111; 100; 101; 108].        (* Scene NUL SOH Model *)
Definition scene_text : bytes := [77; 111; 100; 101; 108; 58; 58; 83; 99; 101; 110; 101].       (* Model::Scene *)

(** Object 0 is the scene, object [i + 1] that of node [i].  In files of version 7000 and later objects have numbers, 0 being the scene; in those of version 6100 they
    have names, and the scene is named as above. *)
Inductive numbered (objs : list node) : Z -> nat -> Prop :=
| nb_scene : numbered objs 0 0
| nb_object i n v : nth_error objs i = Some n -> whole_at n 0 v -> numbered objs v (S i).
Inductive called (objs : list node) : bytes -> nat -> Prop :=
| cl_binary : called objs scene_binary 0
| cl_text : called objs scene_text 0
| cl_object i n s : nth_error objs i = Some n -> string_at n 0 s -> called objs s (S i).

(** A connection says that object [f] belongs to object [t]. *)
Definition linking (c : node) : Prop := string_at c 0 oo \/ string_at c 0 op.
Inductive says (objs : list node) : bool -> node -> nat -> nat -> Prop :=
| sy_number c a b f t : linking c -> whole_at c 1 a -> whole_at c 2 b -> numbered objs a f -> numbered objs b t -> says objs false c f t
| sy_name c a b f t : linking c -> string_at c 1 a -> string_at c 2 b -> called objs a f -> called objs b t -> says objs true c f t.
(** The pairs that a list of connections says, in its order. *)
Inductive links (objs : list node) (old : bool) : list node -> list (nat * nat) -> Prop :=
| lk_nil : links objs old [] []
| lk_yes c f t r l : says objs old c f t -> links objs old r l -> links objs old (c :: r) ((f, t) :: l)
| lk_no c r l : (forall f t, ~ says objs old c f t) -> links objs old r l -> links objs old (c :: r) l.

(** Objects with different numbers other than that of the scene, and connections of numbers. *)
Definition numbers_ok (objs conns : list node) : Prop :=
  (exists ids, Forall2 (fun n v => whole_at n 0 v) objs ids /\ NoDup (0 :: ids)) /\
  Forall (fun c => linking c -> exists a b, whole_at c 1 a /\ whole_at c 2 b) conns.
(** Objects with different names, none of which is that of the scene, and connections of names that do not have the form of text files for the scene. *)
Definition names_ok (objs conns : list node) : Prop :=
  (exists names, Forall2 (fun n s => string_at n 0 s) objs names /\ NoDup (scene_text :: scene_binary :: names)) /\
  Forall (fun c => linking c -> exists a b, string_at c 1 a /\ string_at c 2 b /\ a <> scene_text /\ b <> scene_text) conns.
