(** Proofs about file names (C81). *)
From Coq Require Import String Ascii List ZArith Bool Lia.
From Verif.Model Require Import Cli.
From Verif.Spec Require Import CliSpec.
From Verif.Proofs Require Import CliProofs.
Import ListNotations.
Local Open Scope string_scope.

Lemma has_sep_false s : has_sep s = false <-> without "/" s.
Proof.
  induction s as [|c s IH]; [split; [intros _ []|reflexivity]|]. cbn [has_sep]. rewrite orb_false_iff, without_cons, IH. destruct (Ascii.eqb_spec c "/"); split; intros [A B]; (split; [|exact B]); congruence.
Qed.
Lemma without_app c a b : without c (a ++ b) <-> without c a /\ without c b.
Proof.
  induction a as [|x a IH]; cbn [String.append]; [split; [intros H; split; [intros []|exact H]|intros [_ H]; exact H]|].
  rewrite !without_cons, IH. tauto.
Qed.
Lemma ext_nonempty_or s : (ext s = "" /\ forall a b, s = (a ++ String "." b)%string -> ~ without "/" b) \/
  exists stem r, s = (stem ++ String "." r)%string /\ ext s = String "." r /\ without "." r /\ without "/" r.
Proof.
  induction s as [|c s IH].
  - left. split; [reflexivity|]. intros [|x a] b; discriminate.
  - cbn [ext]. destruct IH as [[E H]|(stem & r & E1 & E2 & E3 & E4)].
    + rewrite E. destruct (Ascii.eqb_spec c "." ) as [->|Nc]; cbn [andb].
      * destruct (has_sep s) eqn:Es; cbn [negb].
        -- left. split; [reflexivity|]. intros [|x a] b Q; injection Q; [intros <- W; apply has_sep_false in W; congruence|]. intros Q' _. apply (H a b Q').
        -- right. exists "", s. split; [reflexivity|]. split; [reflexivity|]. apply has_sep_false in Es. split; [|exact Es]. intros I.
           apply in_split in I. destruct I as (l1 & l2 & Q). assert (Q' : s = (string_of_list_ascii l1 ++ String "." (string_of_list_ascii l2))%string).
           { rewrite <- (string_of_list_ascii_of_string s), Q. clear. induction l1 as [|x l1 IH]; [reflexivity|]. cbn. rewrite IH. reflexivity. }
           apply (H _ _ Q'). rewrite Q' in Es. apply without_app in Es. destruct Es as [_ Es]. apply without_cons in Es. apply Es.
      * left. split; [reflexivity|]. intros [|x a] b Q; injection Q; [intros _ X; congruence|]. intros Q' _. apply (H a b Q').
    + rewrite E2. right. exists (String c stem), r. split; [cbn; congruence|]. split; [reflexivity|]. split; assumption.
Qed.
Lemma ext_is s : is_extension s (ext s).
Proof.
  destruct (ext_nonempty_or s) as [[E H]|(stem & r & E1 & E2 & E3 & E4)].
  - rewrite E. exists s. split; [clear; induction s as [|c s IH]; [reflexivity|cbn; congruence]|]. right. split; [reflexivity|exact H].
  - rewrite E2. exists stem. split; [exact E1|]. left. exists r. split; [reflexivity|]. split; assumption.
Qed.
Lemma app_len a b : String.length (a ++ b) = (String.length a + String.length b)%nat.
Proof. induction a as [|c a IH]; cbn; [reflexivity|]. rewrite IH. reflexivity. Qed.
Lemma app_inj_l a b c : (a ++ b = a ++ c)%string -> b = c.
Proof. induction a as [|x a IH]; cbn; [auto|]. intros E. injection E as E. auto. Qed.
Lemma extension_unique s e1 e2 : is_extension s e1 -> is_extension s e2 -> e1 = e2.
Proof.
  assert (A : forall st1 st2 r1 r2, (st1 ++ String "." r1 = st2 ++ String "." r2)%string -> without "." r1 -> without "." r2 -> r1 = r2).
  { induction st1 as [|c st1 IH]; intros [|d st2] r1 r2 Q W1 W2; cbn in Q; injection Q as Q; subst; try reflexivity.
    - exfalso. apply without_app in W1. destruct W1 as [_ W1]. apply without_cons in W1. apply (proj1 W1). reflexivity.
    - exfalso. apply without_app in W2. destruct W2 as [_ W2]. apply without_cons in W2. apply (proj1 W2). reflexivity.
    - apply (IH st2); assumption. }
  intros (s1 & E1 & [(r1 & -> & D1 & S1)|[-> H1]]) (s2 & E2 & [(r2 & -> & D2 & S2)|[-> H2]]).
  - f_equal. apply (A s1 s2); try assumption. congruence.
  - exfalso. exact (H2 _ _ E1 S1).
  - exfalso. exact (H1 _ _ E2 S2).
  - reflexivity.
Qed.
Lemma lower_len s : String.length (lower s) = String.length s.
Proof. induction s as [|c s IH]; cbn; congruence. Qed.
Lemma substring_app a b : substring 0 (String.length a) (a ++ b) = a.
Proof. induction a as [|c a IH]; cbn; [destruct b; reflexivity|]. rewrite IH. reflexivity. Qed.
Lemma stem_eq stem e : substring 0 (String.length (stem ++ e) - String.length (lower e)) (stem ++ e) = stem.
Proof. rewrite lower_len, app_len. replace (String.length stem + String.length e - String.length e)%nat with (String.length stem) by lia. apply substring_app. Qed.
