(** C90: opening a Unity package changes nothing but its own directory. *)
From Coq Require Import String Ascii List Bool Arith.
From Verif.Model Require Import Cli UnityPackage.
From Verif.Spec Require Import PackageSpec.
From Verif.Proofs Require Import PackageProofs.
Import ListNotations.
Local Open Scope string_scope.
Local Open Scope list_scope.

(** Exactly the names that never lead above their start stay in every directory they are unpacked to. *)
Theorem C90_inside_iff : forall name, (forall dst, under dst (join dst name) = true) <-> never_above name.
Proof. exact inside_iff. Qed.
Print Assumptions C90_inside_iff.
(** With such names nothing outside of the fresh directory changes, whether the package can be read or not. *)
Theorem C90_outside_partial : forall tmp fs es complete, fresh fs tmp -> Forall (fun e => never_above (teName e)) es ->
  forall p, under tmp p = false -> stat (fst (open_package tmp es complete fs)) p = stat fs p.
Proof. exact package_outside. Qed.
Print Assumptions C90_outside_partial.
(** After [Close] everything is as before. *)
Theorem C90_close_partial : forall tmp fs es complete, fresh fs tmp -> Forall (fun e => never_above (teName e)) es ->
  forall p, stat (close_package tmp (fst (open_package tmp es complete fs))) p = stat fs p.
Proof. exact package_close. Qed.
Print Assumptions C90_close_partial.

(** A disk with a home directory and a fresh name below /tmp. *)
Definition C90_disk : fsys := [(["home"; "me"; "notes"], FFile "mine"); (["home"; "me"], FDir); (["home"], FDir); (["tmp"], FDir)].
Definition C90_tmp : path := ["tmp"; "pkg1"].
Lemma C90_fresh : fresh C90_disk C90_tmp.
Proof.
  split; [discriminate|]. split.
  - intro q. reflexivity.
  - unfold C90_tmp. intros [|a [|b p]] c q H; [reflexivity| |]; cbn [app] in H; [|destruct p; discriminate]. injection H as <- _ _. reflexivity.
Qed.
Example C90_example : fst (open_package C90_tmp [mkTE TDir "a/" ""; mkTE TReg "a/../b" "x"; mkTE TReg "./a/pathname" "Assets/b"] true C90_disk) =
  (["tmp"; "pkg1"; "a"; "pathname"], FFile "Assets/b") :: (["tmp"; "pkg1"; "b"], FFile "x") :: (["tmp"; "pkg1"; "a"], FDir) :: (C90_tmp, FDir) :: C90_disk /\
  Forall (fun e => never_above (teName e)) [mkTE TDir "a/" ""; mkTE TReg "a/../b" "x"; mkTE TReg "./a/pathname" "Assets/b"].
Proof. split; [reflexivity|]. repeat constructor; discriminate. Qed.

(** Refuted: names are not checked.  A package can replace any file, and closing it does not bring it back. *)
Theorem C90_slip_refuted : exists tmp fs es fs' a p, fresh fs tmp /\ open_package tmp es true fs = (fs', Some a) /\ under tmp p = false /\
  stat fs p = Some (FFile "mine") /\ stat (close_package tmp fs') p = Some (FFile "theirs").
Proof.
  exists C90_tmp, C90_disk, [mkTE TReg "../../home/me/notes" "theirs"]. eexists. eexists. exists ["home"; "me"; "notes"].
  split; [exact C90_fresh|]. split; [reflexivity|]. split; [reflexivity|]. split; reflexivity.
Qed.
Print Assumptions C90_slip_refuted.
(** Refuted: if the package cannot be read no value to close is returned, and what was unpacked stays. *)
Theorem C90_leak_refuted : exists tmp fs es fs' p, fresh fs tmp /\ Forall plain es /\ open_package tmp es false fs = (fs', None) /\ stat fs p = None /\ stat fs' p = Some (FFile "big").
Proof.
  exists C90_tmp, C90_disk, [mkTE TDir "a" ""; mkTE TReg "a/asset" "big"]. eexists. exists ["tmp"; "pkg1"; "a"; "asset"].
  split; [exact C90_fresh|]. split; [|split; [reflexivity|split; reflexivity]].
  repeat (apply Forall_nil || apply Forall_cons); unfold plain; cbn; intuition discriminate.
Qed.
Print Assumptions C90_leak_refuted.
