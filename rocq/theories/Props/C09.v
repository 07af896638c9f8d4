(** C09: FixNames makes names unique and renames as little as possible. *)
From Coq Require Import String List ZArith.
From Verif.Model Require Import Num Vec Matrix Mqo MqoDoc.
From Verif.Spec Require Import DocSpec.
From Verif.Proofs Require Import MqoDocProofs.
Import ListNotations.
Local Open Scope string_scope.

(** It always ends; names become pairwise different; an entry is renamed only if an earlier
    entry has its name by then, and then gets the smallest free suffix; putting the old names
    back gives the old lists, so nothing else changed; a second run changes nothing. *)
Theorem C09_fix_names (T : Type) (d : document T) :
  exists d', fix_names d = Some d' /\
  NoDup (map oName (dObjects d')) /\ NoDup (map mtName (dMaterials d')) /\
  renaming (map oName (dObjects d)) (map oName (dObjects d')) /\
  renaming (map mtName (dMaterials d)) (map mtName (dMaterials d')) /\
  map (fun p => set_name (fst p) (snd p)) (combine (dObjects d') (map oName (dObjects d))) = dObjects d /\
  map (fun p => set_mat_name (fst p) (snd p)) (combine (dMaterials d') (map mtName (dMaterials d))) = dMaterials d /\
  fix_names d' = Some d'.
Proof. exact (fix_names_ok d). Qed.
Print Assumptions C09_fix_names.

(** Names that already look generated are handled too. *)
Definition named (n : string) : object Z :=
  mkObj 0 n [] [] true false 0 false 1 0%Z 0 0 0 0%Z None None None None [] None.
Definition mat (n : string) : material Z :=
  mkMat n 0 (mkV4 1 1 1 1)%Z 0%Z 0%Z 0%Z 0%Z 0%Z "" "" "" None false 0 None.
Definition doc_dups : document Z :=
  mkDocument [mat "m"; mat "m"] (map named ["a"; "a"; "a_2"; "b"; "a_2"; "a"]).
Example C09_run :
  option_map (fun d => (map oName (dObjects d), map mtName (dMaterials d))) (fix_names doc_dups) =
  Some (["a"; "a_2"; "a_2_2"; "b"; "a_2_3"; "a_3"], ["m"; "m_2"]).
Proof. vm_compute. reflexivity. Qed.
