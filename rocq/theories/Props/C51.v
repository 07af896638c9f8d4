(** C51: Unity scene files are split into their documents. *)
From Coq Require Import String Ascii List ZArith Bool Lia.
From Verif.Model Require Import UnityYaml.
From Verif.Spec Require Import YamlSpec.
From Verif.Proofs Require Import YamlProofs.
Import ListNotations.
Local Open Scope string_scope.
Local Open Scope list_scope.

(** Every document of a file gives one entry, in order, with its tag (through the last directive of its handle), its id, and the lines of its body; but the
    body of all but the last goes on with the three dashes of the next.  Any directives and other lines at the head, any rest after the id (such as
    stripped, or a carriage return), any lines. *)
Theorem C51_split_partial : forall hs ds, Forall head_ok hs -> Forall sdoc_ok ds -> ds <> [] -> long_end ds ->
  exists out, parse_yaml_documents (file_text hs ds) = Some out /\ length out = length ds /\
  forall k d, nth_error ds k = Some d -> exists y, nth_error out k = Some y /\ meaning hs d (yTag y) /\ yID y = sdID d /\
    yBody y = sdoc_body d ++ (if Nat.eqb (S k) (length ds) then [] else list_ascii_of_string "---").
Proof.
  intros hs ds H F N E. exists (result (head_tags [] hs) ds). split; [apply parse_file; assumption|]. clear H F N E. split; [induction ds as [|d ds IH]; [reflexivity|cbn [result length]; rewrite IH; reflexivity]|].
  induction ds as [|d ds IH]; intros [|k] x Hx; cbn [nth_error] in Hx; try discriminate.
  - injection Hx as <-. eexists. split; [reflexivity|]. cbn [yTag yID yBody]. split; [apply tag_meaning|]. split; [reflexivity|]. destruct ds; reflexivity.
  - destruct (IH k x Hx) as (y & Hy & A & B & C). exists y. split; [exact Hy|]. split; [exact A|]. split; [exact B|]. rewrite C. reflexivity.
Qed.
Print Assumptions C51_split_partial.

Definition text (s : string) : bytes := list_ascii_of_string s.
Definition n : string := String nl EmptyString.
Definition show (y : ydoc) : string * string * string := (string_of_list_ascii (yTag y), string_of_list_ascii (yID y), string_of_list_ascii (yBody y)).
Local Open Scope string_scope.
Definition scene : string :=
  "%YAML 1.1" ++ n ++ "%TAG !u! tag:unity3d.com,2011:" ++ n ++ "--- !u!1 &100" ++ n ++ "GameObject:" ++ n ++ "  m_Name: a" ++ n ++ "--- !u!4 &200 stripped" ++ n ++ "Transform:" ++ n.
(** Refuted: the body of a document is not only its own text. *)
Theorem C51_body_refuted : option_map (map show) (parse_yaml_documents (text scene)) =
  Some [("tag:unity3d.com,2011:1", "100", "GameObject:" ++ n ++ "  m_Name: a" ++ n ++ "---"); ("tag:unity3d.com,2011:4", "200", "Transform:" ++ n)].
Proof. vm_compute. reflexivity. Qed.
Print Assumptions C51_body_refuted.
(** Refuted: a last line of up to two characters is lost. *)
Theorem C51_end_refuted : option_map (map show) (parse_yaml_documents (text ("--- !u!1 &100" ++ n ++ "a: {b: 1," ++ n ++ " }" ++ n))) = Some [("!u!1", "100", "a: {b: 1," ++ n)].
Proof. vm_compute. reflexivity. Qed.
Print Assumptions C51_end_refuted.
(** Refuted: a tag that is only the declared handle stops the program. *)
Theorem C51_crash_refuted : parse_yaml_documents (text ("%TAG !u! tag:unity3d.com,2011:" ++ n ++ "--- !u &100" ++ n)) = None.
Proof. vm_compute. reflexivity. Qed.
Print Assumptions C51_crash_refuted.

(** The scene above meets the hypotheses of [C51_split_partial]. *)
Definition scene_head : list head_line := [Other (text "%YAML 1.1"); Directive (text "u") (text "tag:unity3d.com,2011:") []].
Definition scene_docs : list sdoc := [mkSDoc (text "u") (text "1") (text "100") [] [text "GameObject:"; text "  m_Name: a"]; mkSDoc (text "u") (text "4") (text "200") (text " stripped") [text "Transform:"]].
Ltac noline := let H := fresh in intros H; cbn in H; repeat (destruct H as [H|H]; [discriminate H|]); exact H.
Ltac words := split; [discriminate|repeat constructor; discriminate].
Ltac plain := split; [noline|split; intros ? ?; discriminate].
Example C51_example : file_text scene_head scene_docs = text scene /\ Forall head_ok scene_head /\ Forall sdoc_ok scene_docs /\ scene_docs <> [] /\ long_end scene_docs.
Proof.
  split; [vm_compute; reflexivity|]. split; [|split; [|split; [discriminate|]]].
  - constructor; [plain|]. constructor; [|constructor]. split; [words|]. split; [noline|]. split; [words|]. split; [noline|left; reflexivity].
  - constructor; [|constructor; [|constructor]]; (split; [words|]; split; [noline|]; split; [words|]; split; [words|]; split).
    + split; [noline|left; reflexivity].
    + constructor; [plain|]. constructor; [plain|constructor].
    + split; [noline|right; eexists; left; reflexivity].
    + constructor; [plain|constructor].
  - intros a d E b l El. unfold scene_docs in E. destruct a as [|x [|x' [|x'' a]]]; cbn in E; try discriminate; injection E as <- <-. cbn in El. destruct b as [|y [|y' b]]; cbn in El; try discriminate; injection El as <-. cbn. lia.
Qed.
