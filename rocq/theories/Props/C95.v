(** C95: loading a scene ends with a scene. *)
From Coq Require Import String Ascii List ZArith Bool Lia.
From Verif.Model Require Import Vec UnityScene.
From Verif.Spec Require Import PrefabSpec.
From Verif.Proofs Require Import LoadEnds.
Import ListNotations.
Local Open Scope string_scope.
Local Open Scope list_scope.
Local Open Scope Z_scope.

(** If no prefab contains itself, instances have a parent, and modifications name no elements of lists other than materials, every file that can be read is loaded. *)
Theorem C95_loaded_partial : forall (T : Type) (zero : T) of_int to_int files order rank, ranked files rank -> (forall g ds id d, files g = Some ds -> In (id, d) ds -> safe_doc d) ->
  forall g, files g <> None -> exists s, forall n, (rank g < n)%nat -> load zero of_int to_int files order n g = Loaded s.
Proof. exact @load_ends. Qed.
Print Assumptions C95_loaded_partial.
(** Prefabs that are missing are left out without an error. *)
Theorem C95_error : forall (T : Type) (zero : T) of_int to_int files order n g, load zero of_int to_int files order (S n) g = LError <-> files g = None.
Proof. exact @load_error. Qed.
Print Assumptions C95_error.

Definition C95_inst (g : string) (par : option sref) (ms : list (@pmod Z)) : @udoc Z := DPrefab (Some (mkPI false (Some (mkSRef 1 g 3)) par ms)).
Definition C95_zero : option sref := Some (mkSRef 0 "" 0).
(** Three levels of prefabs, and one that is missing. *)
Definition C95_files (g : string) : option (list (Z * @udoc Z)) :=
  if String.eqb g "a" then Some [(1, C95_inst "b" C95_zero []); (2, C95_inst "none" C95_zero []); (3, C95_inst "c" C95_zero [mkPM (Some (mkSRef 7 "c" 3)) "m_LocalScale.z" (VInt 2) None])]
  else if String.eqb g "b" then Some [(1, C95_inst "c" C95_zero [])]
  else if String.eqb g "c" then Some [] else None.
Definition C95_rank (g : string) : nat := if String.eqb g "a" then 2 else if String.eqb g "b" then 1 else 0.
Example C95_meets : ranked C95_files C95_rank /\ forall g ds id d, C95_files g = Some ds -> In (id, d) ds -> safe_doc d.
Proof.
  split.
  - intros g ds id i q F I O S0 V. unfold C95_files in F. destruct (String.eqb_spec g "a") as [->|]; [|destruct (String.eqb_spec g "b") as [->|]; [|destruct (String.eqb g "c"); [injection F as <-; destruct I|discriminate]]]; injection F as <-; cbn in I;
    repeat (destruct I as [I|I]; [injection I as <- <-; injection S0 as <-; cbv; lia|]); destruct I.
  - intros g ds id d F I. unfold C95_files in F. destruct (String.eqb g "a"); [|destruct (String.eqb g "b"); [|destruct (String.eqb g "c"); [injection F as <-; destruct I|discriminate]]]; injection F as <-; cbn [In] in I;
    repeat (destruct I as [I|I]; [injection I as <- <-; cbn; split; [discriminate|]; first [apply Forall_nil|apply Forall_cons; [|apply Forall_nil]; left; intros a b E; cbn in E]|]); try destruct I.
    do 14 (destruct a as [|? a]; cbn in E; [discriminate|injection E as _ E]). destruct a; discriminate.
Qed.
Example C95_example : exists s, load 0 (fun x => x) (fun x => x) C95_files (fun l => l) 3 "a" = Loaded s /\ load 0 (fun x => x) (fun x => x) C95_files (fun l => l) 2 "a" = LFuel.
Proof. eexists. split; vm_compute; reflexivity. Qed.

(** Refuted: a prefab that has an instance of itself. *)
Theorem C95_itself_refuted : exists files, files "p" <> None /\ forall n, load 0 (fun x : Z => x) (fun x => x) files (fun l => l) n "p" = LFuel.
Proof.
  exists (fun g => if String.eqb g "p" then Some [(1, C95_inst "p" C95_zero [])] else None). split; [discriminate|]. induction n as [|n IH]; [reflexivity|]. cbn [load String.eqb Ascii.eqb Bool.eqb load_docs C95_inst piOld piSource valid srFile negb orb Z.eqb srGuid]. now rewrite IH.
Qed.
Print Assumptions C95_itself_refuted.
(** Refuted: an instance without a parent, and modifications of an index that is negative or missing, crash. *)
Definition C95_object : list (Z * @udoc Z) :=
  [(1, DGo (Some (mkUG "body" 1 "" [mkSRef 2 "" 0; mkSRef 3 "" 0] None None))); (2, DTr (Some (mkUT (mkSRef 1 "" 0) None None (mkSRef 0 "" 0) [] (mkV4 0 0 0 1) (mkV3 0 0 0) (mkV3 1 1 1) (mkV3 0 0 0) 0)));
   (3, DRend (Some (mkUR 1 [None])))].
Definition C95_scene (par : option sref) (ms : list (@pmod Z)) (g : string) : option (list (Z * @udoc Z)) := if String.eqb g "s" then Some [(9, C95_inst "p" par ms)] else if String.eqb g "p" then Some C95_object else None.
Theorem C95_crash_refuted : forall n, load 0 (fun x : Z => x) (fun x => x) (C95_scene None []) (fun l => l) (S (S n)) "s" = LCrash /\
  load 0 (fun x : Z => x) (fun x => x) (C95_scene C95_zero [mkPM (Some (mkSRef 3 "p" 3)) "m_Materials.Array.data[-1]" VOther None]) (fun l => l) (S (S n)) "s" = LCrash /\
  load 0 (fun x : Z => x) (fun x => x) (C95_scene C95_zero [mkPM (Some (mkSRef 3 "p" 3)) "m_Materials.Array.data[" VOther None]) (fun l => l) (S (S n)) "s" = LCrash.
Proof. intro n. repeat split; vm_compute; reflexivity. Qed.
Print Assumptions C95_crash_refuted.
