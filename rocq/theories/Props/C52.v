(** C52: hiding an object on the command line hides exactly its subtree. *)
From Coq Require Import String Ascii List ZArith Bool Lia.
From Verif.Model Require Import Num Vec Mqo Cli.
From Verif.Spec Require Import GltfSpec CliSpec.
From Verif.Proofs Require Import CliProofs.
Import ListNotations.
Local Open Scope string_scope.
Local Open Scope list_scope.
Local Open Scope Z_scope.

(** After -hide with a list of patterns, an object is visible exactly if it was visible before and lies in no subtree of an object whose name matches one of
    the patterns; nothing else changes.  Any depths; any meaning of patterns. *)
Theorem C52_hide : forall T (glob : string -> string -> bool) (ps : list string) (os : list (object T)),
  Forall (without ",") ps -> comma_list ps <> "" ->
  let os' := hide glob (comma_list ps) os in length os' = length os /\
  forall i o, nth_error os i = Some o -> exists v, nth_error os' i = Some (set_visible o v) /\
    (v = true <-> oVisible o = true /\
       ~ exists r ro p, nth_error os r = Some ro /\ In p ps /\ glob p (oName ro) = true /\ in_subtree (map oDepth os) r i).
Proof.
  intros T glob ps os F E os'. unfold os', hide. destruct (String.eqb_spec (comma_list ps) "") as [Q|_]; [contradiction|].
  rewrite split_list by (try exact F; intros ->; apply E; reflexivity).
  destruct (hide_loop glob ps os (length os) (le_n _)) as [L H]. split; [exact L|].
  intros i o Ei. destruct (H i o Ei) as (b & A & B). exists (oVisible o && b). split; [exact A|]. rewrite andb_true_iff.
  assert (M : b = true <-> ~ b = false) by (destruct b; split; congruence). rewrite M, B. split; intros [V Nx]; (split; [exact V|]); intros X; apply Nx.
  - destruct X as (r & ro & p & Er & Hp & Gp & S). exists r, ro. split; [apply nth_error_Some; rewrite Er; discriminate|]. split; [exact Er|].
    split; [apply existsb_exists; exists p; split; assumption|]. apply subtree_run. exact S.
  - destruct X as (r & x & Hr & Er & Mx & R). apply existsb_exists in Mx. destruct Mx as (p & Hp & Gp). exists r, x, p. split; [exact Er|]. split; [exact Hp|]. split; [exact Gp|].
    apply run_subtree; [rewrite map_length; apply nth_error_Some; rewrite Ei; discriminate|exact R].
Qed.
Print Assumptions C52_hide.
(** Without the option nothing is hidden. *)
Theorem C52_none : forall T (glob : string -> string -> bool) (os : list (object T)), hide glob "" os = os.
Proof. reflexivity. Qed.
Print Assumptions C52_none.

(** A tree with a gap in its depths: hiding b hides its children c and d, at whatever depth, and nothing after them. *)
Definition ob (n : string) (d : Z) (v : bool) : object Z :=
  mkObj 0 n [] [] v false d false 0 0 0 0 0 0 None None None None [] None.
Definition scene : list (object Z) := [ob "a" 0 true; ob "b" 1 true; ob "c" 5 true; ob "d" 3 false; ob "e" 1 true; ob "f" 0 true; ob "b" 0 true; ob "g" 1 true].
Example C52_example : map (fun o => (oName o, oVisible o)) (hide String.eqb (comma_list ["x"; "b"]) scene) =
  [("a", true); ("b", false); ("c", false); ("d", false); ("e", true); ("f", true); ("b", false); ("g", false)] /\
  Forall (without ",") ["x"; "b"] /\ comma_list ["x"; "b"] <> "" /\ in_subtree (map oDepth scene) 1 3 /\ ~ in_subtree (map oDepth scene) 1 4.
Proof.
  split; [reflexivity|]. split; [repeat constructor; intros [E|[]]; discriminate|]. split; [discriminate|]. split.
  - apply (sub_child _ _ 3 1); [|constructor]. exists 3, 1. repeat split; try reflexivity; try lia. intros j dj Hj Ej. assert (j = 2)%nat by lia. subst j. injection Ej as <-. lia.
  - intros S. apply subtree_run in S. destruct S as [_ S]. specialize (S 4%nat 1 1 ltac:(lia) eq_refl eq_refl). lia.
Qed.
