(** C63: FBX world matrices. *)
From Coq Require Import List ZArith Bool Lia.
From Verif Require Import Model.Codec Model.Fbx Model.FbxDoc Spec.FbxDocSpec Proofs.FbxDocProofs.
Import ListNotations.

(** The claim: every model of a file has a world matrix, the product of the local ones from
    the root of its chain of parents down. *)
Definition C63_full : Prop := forall (conns : list (nat * nat)) m, exists f l,
  chain (fun x => parent_of x conns) m l /\
  forall (M : Type) (mul : M -> M -> M) local,
    world mul local (fun x => parent_of x conns) f m =
    match map local l with [] => None | w :: r => Some (fold_left mul r w) end.

(** The parent of a model is what its last connection says. *)
Theorem C63_parent : forall m conns, match parent_of m conns with
  | Some p => exists a b, conns = a ++ (m, p) :: b /\ ~ In m (map fst b)
  | None => ~ In m (map fst conns)
  end.
Proof. exact parent_of_spec. Qed.
Print Assumptions C63_parent.

(** It holds when the parents descend. *)
Theorem C63_world_partial : forall (parent : nat -> option nat) rank m,
  (forall m p, parent m = Some p -> (rank p < rank m)%nat) ->
  exists l, chain parent m l /\ forall (M : Type) (mul : M -> M -> M) local f, (S (rank m) <= f)%nat ->
    world mul local parent f m = match map local l with [] => None | w :: r => Some (fold_left mul r w) end.
Proof. exact world_product. Qed.
Print Assumptions C63_world_partial.

(** The chain is the only one, so the product is determined. *)
Theorem C63_chain_unique : forall parent m l l', chain parent m l -> chain parent m l' -> l = l'.
Proof. exact (fun parent m l l' H => chain_unique parent m l H l'). Qed.
Print Assumptions C63_chain_unique.

(** Connections that close a loop make the computation endless. *)
Theorem C63_cycle : forall (M : Type) (mul : M -> M -> M) local parent (S : nat -> Prop),
  (forall m, S m -> exists p, parent m = Some p /\ S p) ->
  forall f m, S m -> world mul local parent f m = None.
Proof. exact (fun M => @world_cycle M). Qed.
Print Assumptions C63_cycle.

Theorem C63_world_refuted : ~ C63_full.
Proof.
  intros H. destruct (H [(1%nat, 2%nat); (2%nat, 1%nat)] 1%nat) as (f & l & C & E).
  specialize (E nat Nat.mul (fun x => x)).
  rewrite (world_cycle _ _ _ (fun m => m = 1%nat \/ m = 2%nat)) in E; [|intros m [-> | ->]; cbn; eauto|auto].
  inversion C; subst; [discriminate|]. rewrite map_app in E. destruct (map _ _) in E; discriminate.
Qed.
Print Assumptions C63_world_refuted.

(** Three models below the scene 0; the last connection counts. *)
Example C63_example :
  world (@app nat) (fun m => [m]) (fun x => parent_of x [(1, 0); (2, 0); (3, 2); (2, 1)])%nat 9 3%nat = Some [0; 1; 2; 3]%nat.
Proof. reflexivity. Qed.
