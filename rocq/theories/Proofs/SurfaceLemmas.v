From Coq Require Import List Arith ZArith Permutation Lia.
From Verif.Spec Require Import Surface.
Import ListNotations.

Lemma path_edges_snoc {A} (f : A) l x : l <> [] ->
  path_edges f (l ++ [x]) = path_edges x l ++ [(x, f)].
Proof.
  induction l as [|y l IH]; [congruence|]. intros _.
  destruct l as [|z l]; [reflexivity|].
  change (path_edges f ((y :: z :: l) ++ [x])) with ((y, z) :: path_edges f ((z :: l) ++ [x])).
  rewrite IH by discriminate. reflexivity.
Qed.

Lemma cycle_edges_rot1 {A} (x : A) l : Permutation (cycle_edges (x :: l)) (cycle_edges (l ++ [x])).
Proof.
  destruct l as [|y l]; [reflexivity|].
  change ((y :: l) ++ [x]) with (y :: (l ++ [x])).
  unfold cycle_edges at 2. change (y :: l ++ [x]) with ((y :: l) ++ [x]).
  rewrite path_edges_snoc by discriminate.
  change (cycle_edges (x :: y :: l)) with ((x, y) :: path_edges x (y :: l)).
  apply Permutation_cons_append.
Qed.

Lemma cycle_edges_rot {A} (a b : list A) : Permutation (cycle_edges (a ++ b)) (cycle_edges (b ++ a)).
Proof.
  revert b; induction a as [|x a IH]; intros b; [rewrite app_nil_r; reflexivity|].
  cbn [app]. etransitivity; [apply cycle_edges_rot1|].
  rewrite <- app_assoc. etransitivity; [apply IH|].
  rewrite <- app_assoc. reflexivity.
Qed.

Lemma cycle_edges_length {A} (l : list A) : length (cycle_edges l) = length l.
Proof.
  destruct l as [|x l]; [reflexivity|]. unfold cycle_edges.
  generalize x at 1 as f. revert x; induction l as [|y l IH]; intros x f; [reflexivity|].
  cbn [path_edges length]. f_equal. apply IH.
Qed.

(** Cutting an ear with corners (q, x, p) off the cycle x, p, ..., q. *)
Lemma cycle_edges_ear x p r q :
  Permutation (tri_edges (q, x, p) ++ cycle_edges (p :: r ++ [q]))
              (cycle_edges (x :: p :: r ++ [q]) ++ both_ways (p, q)).
Proof.
  change (cycle_edges (x :: p :: r ++ [q])) with ((x, p) :: path_edges x ((p :: r) ++ [q])).
  change (cycle_edges (p :: r ++ [q])) with (path_edges p ((p :: r) ++ [q])).
  rewrite !path_edges_snoc by discriminate.
  unfold tri_edges, both_ways; cbn [fst snd app].
  set (E := path_edges q (p :: r)).
  replace ((E ++ [(q, p)])) with (E ++ [(q, p)]) by reflexivity.
  transitivity ([(q, x); (x, p); (p, q); (q, p)] ++ E).
  - cbn [app]. do 3 apply perm_skip. apply Permutation_sym, Permutation_cons_append.
  - transitivity ((x, p) :: [(q, x)] ++ [(p, q); (q, p)] ++ E).
    + cbn [app]. apply perm_swap.
    + apply perm_skip. rewrite <- app_assoc.
      transitivity (([(q, x)] ++ [(p, q); (q, p)]) ++ E).
      * rewrite <- app_assoc; reflexivity.
      * apply Permutation_app_comm.
Qed.

Lemma net_app a b es fs : net a b (es ++ fs) = (net a b es + net a b fs)%Z.
Proof. unfold net. rewrite !count_occ_app. lia. Qed.

Lemma net_both a b ds : net a b (flat_map both_ways ds) = 0%Z.
Proof.
  induction ds as [|[u v] ds IH]; [reflexivity|].
  cbn [flat_map]. rewrite net_app, IH. unfold net, both_ways; cbn [fst snd count_occ].
  repeat destruct eq_edge_dec; try lia; try congruence;
  exfalso; congruence.
Qed.

Lemma net_perm a b es fs : Permutation es fs -> net a b es = net a b fs.
Proof.
  intros H. unfold net.
  rewrite !(proj1 (Permutation_count_occ eq_edge_dec es fs) H). reflexivity.
Qed.

Lemma dissects_same_boundary poly ts :
  dissects poly ts -> same_boundary (flat_map tri_edges ts) (cycle_edges poly).
Proof.
  intros [ds H] a b. rewrite (net_perm a b _ _ H), net_app, net_both. lia.
Qed.
