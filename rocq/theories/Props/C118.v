(** C118: An MQO file is read in its code page, and its file names are understood. *)
From Coq Require Import String Ascii List ZArith Bool Lia.
From Verif.Model Require Import MqoCodePage.
From Verif Require Import Spec.CodePageSpec Proofs.CodePageProofs.
Import ListNotations.
Local Open Scope list_scope.
Local Open Scope char_scope.

(** What is looked at is exactly the first 128 bytes of what the first call of Read returns. *)
Theorem C118_detected_partial : forall sjis c r,
  (declares_utf8 (firstn 128 c) -> decoded sjis (c :: r) = concat (c :: r)) /\
  (~ declares_utf8 (firstn 128 c) -> decoded sjis (c :: r) = replace_backslashes (sjis (concat (c :: r)))).
Proof. exact decoded_spec. Qed.
Print Assumptions C118_detected_partial.

(** A file written by this program is read as it is, if the first call of Read returns its first lines. *)
Theorem C118_own_partial : forall sjis body c r, concat (c :: r) = written body -> (54 <= length c)%nat -> decoded sjis (c :: r) = written body.
Proof. exact written_decoded. Qed.
Print Assumptions C118_own_partial.

(** A name in quotes is read without an error: with slashes, in Shift-JIS; as it is, in UTF-8 if it has no backslash. *)
Theorem C118_shift_jis : forall s rest, name_text s -> exists t,
  read_str (replace_backslashes (quote :: s ++ quote :: rest)) = (0%nat, t, replace_backslashes rest) /\ with_slashes s t.
Proof. exact read_shift_jis. Qed.
Print Assumptions C118_shift_jis.
Theorem C118_utf8_partial : forall s rest, name_text s -> ~ In backslash s -> read_str (quote :: s ++ quote :: rest) = (0%nat, s, rest).
Proof. exact read_plain. Qed.
Print Assumptions C118_utf8_partial.

(** Exactly the literals of Go are read without an error (a NUL is always one, see C122). *)
Theorem C118_literals : forall l rest, ~ In "000" l -> (exists t, read_str (quote :: l) = (0%nat, t, rest)) <-> exists s, go_literal s /\ l = s ++ quote :: rest.
Proof. intros l rest _. exact (read_go_literal l rest). Qed.
Print Assumptions C118_literals.

Definition lit (s : string) : text := quote :: list_ascii_of_string s ++ quote :: list_ascii_of_string ") dif(0.8)".
(** In a file in UTF-8 a directory in the name of a texture can make the whole file unreadable, or stay a backslash. *)
Theorem C118_escape_refuted : exists s e t r, name_text (list_ascii_of_string s) /\ s = "tex\eye.png"%string /\ read_str (lit s) = (e, t, r) /\ parse_fails e = true.
Proof.
  exists "tex\eye.png"%string. do 3 eexists. split; [split; cbn; intros H; repeat (destruct H as [H|H]; [discriminate H|]); exact H|]. split; [reflexivity|]. split; vm_compute; reflexivity.
Qed.
Print Assumptions C118_escape_refuted.
Theorem C118_kept_refuted : exists s t r, name_text (list_ascii_of_string s) /\ read_str (lit s) = (0%nat, t, r) /\ ~ with_slashes (list_ascii_of_string s) t.
Proof.
  exists "tex\new.png"%string. do 2 eexists. split; [split; cbn; intros H; repeat (destruct H as [H|H]; [discriminate H|]); exact H|]. split; [vm_compute; reflexivity|].
  intros F. cbn in F. do 3 (inversion F as [|? ? ? ? _ F']; subst; clear F; rename F' into F). inversion F as [|? ? ? ? [[_ H]|[H _]] _]; subst; [apply H; reflexivity|discriminate].
Qed.
Print Assumptions C118_kept_refuted.
(** A backslash at the end hides the closing quote: the text after it becomes part of the name. *)
Theorem C118_end_refuted : exists s rest t r, name_text (list_ascii_of_string s) /\ rest = list_ascii_of_string ") bump(" /\
  read_str (quote :: list_ascii_of_string s ++ quote :: rest ++ quote :: list_ascii_of_string "a.png") = (0%nat, t, r) /\ t = list_ascii_of_string "dir\"") bump(" /\ r = list_ascii_of_string "a.png".
Proof.
  exists "dir\"%string. do 3 eexists. split; [split; cbn; intros H; repeat (destruct H as [H|H]; [discriminate H|]); exact H|]. split; [reflexivity|]. split; [vm_compute; reflexivity|]. split; reflexivity.
Qed.
Print Assumptions C118_end_refuted.

(** A file of this program whose first call of Read returns fewer bytes is read as Shift-JIS. *)
Theorem C118_chunk_refuted : exists c r body, concat (c :: r) = written body /\ (forall sjis, decoded sjis (c :: r) = replace_backslashes (sjis (written body))).
Proof.
  exists (firstn 40 (written [])), [skipn 40 (written [])], []. split; [vm_compute; reflexivity|]. intros sjis.
  destruct (decoded_spec sjis (firstn 40 (written [])) [skipn 40 (written [])]) as [_ H].
  rewrite H; [replace (concat [firstn 40 (written []); skipn 40 (written [])]) with (written []) by (vm_compute; reflexivity); reflexivity|].
  intros M. apply matched_spec in M. vm_compute in M. discriminate.
Qed.
Print Assumptions C118_chunk_refuted.
(** A declaration after the first 128 bytes is not seen. *)
Definition late : text := repeat " " 130 ++ list_ascii_of_string "CodePage utf8".
Theorem C118_late_refuted : exists l, declares_utf8 l /\ (forall sjis, decoded sjis [l] = replace_backslashes (sjis l)).
Proof.
  exists late. split.
  - exists (repeat " " 130), [" "], []. split; [reflexivity|]. split; [discriminate|]. constructor; [cbn; auto 10|constructor].
  - intros sjis. assert (D : ~ declares_utf8 (firstn 128 late)) by (intros M; apply matched_spec in M; vm_compute in M; discriminate).
    pose proof (proj2 (decoded_spec sjis late []) D) as H. cbn [concat] in H. rewrite app_nil_r in H. exact H.
Qed.
Print Assumptions C118_late_refuted.

(** A file of this program in two pieces, and names. *)
Example C118_example : let body := list_ascii_of_string "Material 1 {" in
  concat [firstn 60 (written body); skipn 60 (written body)] = written body /\ (54 <= length (firstn 60 (written body)))%nat /\
  decoded (fun _ => []) [firstn 60 (written body); skipn 60 (written body)] = written body /\
  read_str (replace_backslashes (lit "tex\eye.png")) = (0%nat, list_ascii_of_string "tex/eye.png", list_ascii_of_string ") dif(0.8)") /\
  read_str (lit "tex/eye.png") = (0%nat, list_ascii_of_string "tex/eye.png", list_ascii_of_string ") dif(0.8)") /\
  fst (fst (read_str (lit "a\x4Z"))) = 1%nat /\ fst (fst (read_str (lit "a\101ä\tb"))) = 0%nat.
Proof. cbv zeta. repeat split; try (vm_compute; reflexivity). vm_compute. lia. Qed.
Example C118_literal_example : go_literal (list_ascii_of_string "a\u00e9\n\101z") /\ ~ go_literal (list_ascii_of_string "tex\u12").
Proof.
  split.
  - apply L_char; try discriminate. apply (L_hex "u" 4 ["0"; "0"; "e"; "9"]); [cbn; auto|reflexivity|repeat constructor; unfold hexadecimal_digit; cbv; lia|].
    apply L_letter; [cbn; auto 10|]. apply (L_octal ["1"; "0"; "1"]); [reflexivity|repeat constructor; unfold octal_digit; cbv; lia|]. apply L_char; try discriminate. constructor.
  - intros H. destruct (proj2 (C118_literals (list_ascii_of_string "tex\u12" ++ [quote]) [] ltac:(cbn; intuition discriminate))) as (t & E); [exists (list_ascii_of_string "tex\u12"); split; [exact H|reflexivity]|]. vm_compute in E. discriminate.
Qed.
