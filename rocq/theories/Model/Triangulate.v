(** [geom/utils.go]: ear-clipping triangulation. *)
From Coq Require Import List Arith Bool.
From Verif.Model Require Import Num Vec.
Import ListNotations.

Definition tri : Type := (nat * nat * nat)%type.

Section Tri.
Context {T : Type} {N : Num T}.

(** geom/utils.go:24-28 *)
Definition is_in_triangle (p a b c : vec3 T) : bool :=
  let ab := v3sub b a in let bc := v3sub c b in let ca := v3sub a c in
  let c1 := v3cross ab (v3sub p a) in
  let c2 := v3cross bc (v3sub p b) in
  let c3 := v3cross ca (v3sub p c) in
  nltb nzero (v3dot c1 c2) && nltb nzero (v3dot c2 c3) && nltb nzero (v3dot c3 c1).

Variable poly : list (vec3 T).

(** Slice indexing; [None] models the index-out-of-range panic. *)
Definition pidx (i : nat) : option (vec3 T) := nth_error poly i.

(** geom/utils.go:35-44: accumulated corner normals, normalised. *)
Definition poly_normal : option (vec3 T) :=
  let n := length poly in
  let step acc i :=
    match acc, pidx ((i + n - 1) mod n), pidx i, pidx ((i + 1) mod n) with
    | Some m, Some v0, Some v1, Some v2 =>
        Some (v3add m (v3cross (v3sub v0 v1) (v3sub v2 v1)))
    | _, _, _, _ => None
    end in
  option_map v3normalize
    (fold_left step (seq 0 n) (Some (mkV3 nzero nzero nzero))).

(** geom/utils.go:59-67: is any remaining corner inside the candidate ear?
    [None] would be an index panic. *)
Fixpoint any_inside (tmp : list nat) (v0 v1 v2 : vec3 T) : option bool :=
  match tmp with
  | [] => Some false
  | i :: r =>
      match pidx i with
      | None => None
      | Some p => if is_in_triangle p v0 v1 v2 then Some true else any_inside r v0 v1 v2
      end
  end.

(** geom/utils.go:50-77: one pass of the inner loop.  [k] is [i+1]; the loop counts
    [i] down from [count-1] to 0.  [ii] is the list of remaining corners
    ([count = len(ii)] throughout), [dst] the triangles so far. *)
Fixpoint pass (n : vec3 T) (k : nat) (ii : list nat) (dst : list tri)
  : option (list nat * list tri) :=
  match k with
  | O => Some (ii, dst)
  | S i =>
      let count := length ii in
      match nth_error ii ((i + count - 1) mod count), nth_error ii i,
            nth_error ii ((i + 1) mod count) with
      | Some i0, Some i1, Some i2 =>
          match pidx i0, pidx i1, pidx i2 with
          | Some v0, Some v1, Some v2 =>
              if nleb nzero (v3dot (v3cross (v3sub v0 v1) (v3sub v2 v1)) n) then
                let tmp := firstn i ii ++ skipn (i + 1) ii in
                match any_inside tmp v0 v1 v2 with
                | None => None
                | Some true => pass n i ii dst
                | Some false =>
                    let dst' := dst ++ [(i0, i1, i2)] in
                    if length tmp <? 3 then Some (tmp, dst')   (* break *)
                    else pass n i tmp dst'
                end
              else pass n i ii dst
          | _, _, _ => None
          end
      | _, _, _ => None
      end
  end.

(** geom/utils.go:80-82: fallback fan over the remaining corners. *)
Definition fan_step (ii : list nat) (i : nat) : option tri :=
  match nth_error ii 0, nth_error ii (i + 1), nth_error ii (i + 2) with
  | Some a, Some b, Some c => Some (a, b, c)
  | _, _, _ => None
  end.
Fixpoint fan_list (ii : list nat) (is : list nat) : option (list tri) :=
  match is with
  | [] => Some []
  | i :: r =>
      match fan_step ii i, fan_list ii r with
      | Some t, Some ts => Some (t :: ts)
      | _, _ => None
      end
  end.
Definition fan (ii : list nat) : option (list tri) := fan_list ii (seq 0 (length ii - 2)).

(** geom/utils.go:47-86: the outer loop.  [fuel] bounds the number of passes;
    running out of fuel is [None] (the theorem shows it does not happen with
    [fuel = len(poly)]). *)
Fixpoint clip (fuel : nat) (n : vec3 T) (ii : list nat) (dst : list tri)
  : option (list tri) :=
  if length ii <? 3 then Some dst
  else match fuel with
       | O => None
       | S f =>
           match pass n (length ii) ii dst with
           | None => None
           | Some (ii', dst') =>
               if length ii' =? length ii
               then option_map (fun ts => dst' ++ ts) (fan ii')
               else clip f n ii' dst'
           end
       end.

(** geom/utils.go:30-87 *)
Definition triangulate : option (list tri) :=
  if length poly <? 3 then Some []
  else match poly_normal with
       | None => None
       | Some n => clip (length poly) n (seq 0 (length poly)) []
       end.
End Tri.
