(** Combinatorial surfaces: oriented edges of polygons and how they cancel.
    Used to state properties; does not mention any model function. *)
From Coq Require Import List Arith ZArith Permutation.
Import ListNotations.

(** Oriented edges of a closed corner cycle [c0; c1; ...; ck]: (c0,c1) ... (ck,c0). *)
Fixpoint path_edges {A : Type} (first : A) (l : list A) : list (A * A) :=
  match l with
  | [] => []
  | [x] => [(x, first)]
  | x :: ((y :: _) as r) => (x, y) :: path_edges first r
  end.
Definition cycle_edges {A : Type} (l : list A) : list (A * A) :=
  match l with [] => [] | x :: _ => path_edges x l end.

Definition eq_edge_dec (a b : nat * nat) : {a = b} + {a <> b}.
Proof. decide equality; apply Nat.eq_dec. Defined.

(** How often the oriented edge (a,b) is used, minus how often it is used backwards. *)
Definition net (a b : nat) (es : list (nat * nat)) : Z :=
  (Z.of_nat (count_occ eq_edge_dec es (a, b)) - Z.of_nat (count_occ eq_edge_dec es (b, a)))%Z.

(** Two families of oriented edges have the same boundary. *)
Definition same_boundary (es fs : list (nat * nat)) : Prop :=
  forall a b, net a b es = net a b fs.

Definition tri_edges (t : nat * nat * nat) : list (nat * nat) :=
  let '(a, b, c) := t in [(a, b); (b, c); (c, a)].

(** A family of faces is a closed, consistently oriented surface: every directed edge is
    used at most once and is matched by its reverse. *)
Definition closed_surface (faces : list (list nat)) : Prop :=
  let es := flat_map cycle_edges faces in
  NoDup es /\ (forall a b, In (a, b) es -> a <> b /\ In (b, a) es).

(** [ts] dissects the closed polygon [poly]: the oriented edges of the triangles are exactly
    the polygon's own edges plus a set of diagonals each used once in both directions. *)
Definition both_ways (d : nat * nat) : list (nat * nat) := [(fst d, snd d); (snd d, fst d)].
Definition dissects (poly : list nat) (ts : list (nat * nat * nat)) : Prop :=
  exists diagonals,
    Permutation (flat_map tri_edges ts) (cycle_edges poly ++ flat_map both_ways diagonals).

Definition tri_distinct (t : nat * nat * nat) : Prop :=
  let '(a, b, c) := t in a <> b /\ b <> c /\ c <> a.
Definition tri_corners_in (l : list nat) (t : nat * nat * nat) : Prop :=
  let '(a, b, c) := t in In a l /\ In b l /\ In c l.
