(** Proofs about code pages and literals. *)
From Coq Require Import String Ascii List ZArith Bool Lia.
From Verif.Model Require Import MqoCodePage.
From Verif Require Import Spec.CodePageSpec.
Import ListNotations.
Local Open Scope list_scope.
Local Open Scope char_scope.

Lemma starts_with_spec p : forall l, starts_with p l = true <-> exists b, l = p ++ b.
Proof.
  induction p as [|a p IH]; intros l; cbn [starts_with].
  - split; [exists l; reflexivity|reflexivity].
  - destruct l as [|b l]; [split; [discriminate|intros (? & E); discriminate]|]. rewrite andb_true_iff, IH, Ascii.eqb_eq. split.
    + intros (-> & x & ->). exists x. reflexivity.
    + intros (x & E). cbn in E. injection E as -> ->. eauto.
Qed.
Lemma is_space_spec c : is_space c = true <-> In c ["009"; "010"; "012"; "013"; " "].
Proof.
  unfold is_space. rewrite !orb_true_iff, !Ascii.eqb_eq. cbn [In]. split.
  - intros [[[[-> | ->]| ->]| ->]| ->]; auto 10.
  - intros [<-|[<-|[<-|[<-|[<-|[]]]]]]; auto 10.
Qed.
Lemma spaces_spec : forall l seen, spaces_utf8 seen l = true <->
  exists ws b, l = ws ++ list_ascii_of_string "utf8" ++ b /\ (seen = true \/ ws <> []) /\ Forall (fun c => In c ["009"; "010"; "012"; "013"; " "]) ws.
Proof.
  induction l as [|c r IH]; intros seen.
  - cbn [spaces_utf8]. split.
    + rewrite orb_false_r, andb_true_iff. intros (-> & H). discriminate.
    + intros (ws & b & E & _). destruct ws; discriminate.
  - cbn [spaces_utf8]. rewrite orb_true_iff, !andb_true_iff, starts_with_spec, IH, is_space_spec. split.
    + intros [(-> & b & E)|(Hc & ws & b & -> & _ & F)].
      * exists [], b. cbn [app]. repeat split; [exact E|left; reflexivity|constructor].
      * exists (c :: ws), b. repeat split; [right; discriminate|constructor; assumption].
    + intros (ws & b & E & Hs & F). destruct ws as [|x ws].
      * destruct Hs as [->|[]]; [|reflexivity]. left. split; [reflexivity|]. exists b. exact E.
      * injection E as -> ->. inversion F; subst. right. split; [assumption|]. exists ws, b. repeat split; [left; reflexivity|assumption].
Qed.
Theorem matched_spec : forall l, matched l = true <-> declares_utf8 l.
Proof.
  induction l as [|c r IH].
  - cbn. split; [discriminate|]. intros (a & ws & b & E & _). destruct a; discriminate.
  - cbn [matched]. rewrite orb_true_iff, IH, andb_true_iff, starts_with_spec, spaces_spec. split.
    + intros [((b0 & E) & ws & b & E2 & [C|Hw] & F)|(a & ws & b & -> & Hw & F)].
      * discriminate.
      * rewrite E in E2. cbn [code_page list_ascii_of_string app skipn] in E2. subst b0. exists [], ws, b. split; [exact E|]. auto.
      * exists (c :: a), ws, b. auto.
    + intros (a & ws & b & E & Hw & F). destruct a as [|x a].
      * left. split; [exists (ws ++ list_ascii_of_string "utf8" ++ b); exact E|]. exists ws, b. rewrite E. split; [reflexivity|]. auto.
      * right. injection E as -> ->. exists a, ws, b. auto.
Qed.

Lemma first_read_all chunks : fst (first_read chunks) ++ concat (snd (first_read chunks)) = concat chunks.
Proof. destruct chunks as [|c r]; [reflexivity|]. cbn [first_read fst snd concat]. rewrite app_assoc, firstn_skipn. reflexivity. Qed.

Theorem decoded_spec sjis c r :
  (declares_utf8 (firstn 128 c) -> decoded sjis (c :: r) = concat (c :: r)) /\
  (~ declares_utf8 (firstn 128 c) -> decoded sjis (c :: r) = replace_backslashes (sjis (concat (c :: r)))).
Proof.
  assert (A : firstn 128 c ++ concat (skipn 128 c :: r) = concat (c :: r)) by exact (first_read_all (c :: r)).
  assert (D : decoded sjis (c :: r) = if matched (firstn 128 c) then firstn 128 c ++ concat (skipn 128 c :: r) else replace_backslashes (sjis (firstn 128 c ++ concat (skipn 128 c :: r)))) by reflexivity.
  rewrite D, A. split; intros H.
  - apply matched_spec in H. rewrite H. reflexivity.
  - destruct (matched (firstn 128 c)) eqn:M; [apply matched_spec in M; contradiction|reflexivity].
Qed.

(** Files of this program: the head is 55 bytes long. *)
Theorem written_decoded sjis body c r : concat (c :: r) = written body -> (54 <= length c)%nat -> decoded sjis (c :: r) = written body.
Proof.
  intros E L. rewrite <- E. apply (proj1 (decoded_spec sjis c r)).
  assert (P : firstn 54 (firstn 128 c) = firstn 54 (written body)).
  { rewrite firstn_firstn. cbn [Nat.min]. rewrite <- E. cbn [concat]. rewrite firstn_app. replace (54 - length c)%nat with 0%nat by lia. cbn [firstn]. rewrite app_nil_r. reflexivity. }
  exists (list_ascii_of_string "Metasequoia Document" ++ newline :: list_ascii_of_string "Format Text Ver 1.1" ++ [newline]), [" "], (skipn 54 (firstn 128 c)).
  split; [|split; [discriminate|constructor; [cbn; auto 10|constructor]]].
  rewrite <- (firstn_skipn 54 (firstn 128 c)) at 1. rewrite P. reflexivity.
Qed.

Lemma scan_plain : forall s f rest, ~ In quote s -> ~ In newline s -> ~ In backslash s -> (length s < f)%nat ->
  scan_string f (s ++ quote :: rest) = (0%nat, rest).
Proof.
  induction s as [|c s IH]; intros f rest Q L B F; (destruct f as [|f]; [cbn in F; lia|]); cbn [scan_string app].
  - rewrite Ascii.eqb_refl. reflexivity.
  - destruct (Ascii.eqb_spec c quote) as [->|_]; [exfalso; apply Q; left; reflexivity|].
    destruct (Ascii.eqb_spec c newline) as [->|_]; [exfalso; apply L; left; reflexivity|].
    destruct (Ascii.eqb_spec c backslash) as [->|_]; [exfalso; apply B; left; reflexivity|].
    apply IH; [intros X; apply Q; right; exact X|intros X; apply L; right; exact X|intros X; apply B; right; exact X|cbn in F; lia].
Qed.
Lemma trim_left_none s : ~ In quote s -> trim_left_quote s = s.
Proof. destruct s as [|c s]; [reflexivity|]. intros H. cbn [trim_left_quote]. destruct (Ascii.eqb_spec c quote) as [->|_]; [exfalso; apply H; left; reflexivity|reflexivity]. Qed.
Lemma trim_literal s : ~ In quote s -> trim_quotes (quote :: s ++ [quote]) = s.
Proof.
  intros H. unfold trim_quotes. cbn [trim_left_quote]. rewrite Ascii.eqb_refl.
  destruct s as [|c s]; [reflexivity|]. cbn [app trim_left_quote]. destruct (Ascii.eqb_spec c quote) as [->|_]; [exfalso; apply H; left; reflexivity|].
  change (c :: s ++ [quote]) with ((c :: s) ++ [quote]). rewrite rev_app_distr. cbn [rev app trim_left_quote]. rewrite Ascii.eqb_refl.
  rewrite trim_left_none; [|intros X; apply H; apply in_rev; exact X]. change (rev s ++ [c]) with (rev (c :: s)). apply rev_involutive.
Qed.
Theorem read_plain s rest : name_text s -> ~ In backslash s -> read_str (quote :: s ++ quote :: rest) = (0%nat, s, rest).
Proof.
  intros [Q L] B. unfold read_str. rewrite scan_plain; [|assumption|assumption|assumption|rewrite app_length; cbn; lia]. f_equal. f_equal.
  replace (length (quote :: s ++ quote :: rest) - length rest)%nat with (length (quote :: s ++ [quote])) by (cbn [length]; rewrite !app_length; cbn [length]; lia).
  replace (quote :: s ++ quote :: rest) with ((quote :: s ++ [quote]) ++ rest) by (cbn [app]; rewrite <- app_assoc; reflexivity).
  rewrite firstn_app, Nat.sub_diag, firstn_all. cbn [firstn]. rewrite app_nil_r. apply trim_literal. exact Q.
Qed.

Lemma replaced_slashes s : with_slashes s (replace_backslashes s).
Proof.
  induction s as [|c s IH]; cbn [replace_backslashes map]; constructor; [|exact IH].
  destruct (Ascii.eqb_spec c backslash) as [->|N]; [right|left]; auto.
Qed.
Lemma replaced_in c s : In c (replace_backslashes s) -> In c s \/ c = "/".
Proof. unfold replace_backslashes. rewrite in_map_iff. intros (x & E & X). destruct (Ascii.eqb x backslash); subst; auto. Qed.
Lemma replaced_none s : ~ In backslash (replace_backslashes s).
Proof.
  unfold replace_backslashes. rewrite in_map_iff. intros (x & E & _). destruct (Ascii.eqb_spec x backslash) as [e|N]; [discriminate|contradiction].
Qed.
(** Names of a file in Shift-JIS, after decoding. *)
Theorem read_shift_jis s rest : name_text s -> exists t,
  read_str (replace_backslashes (quote :: s ++ quote :: rest)) = (0%nat, t, replace_backslashes rest) /\ with_slashes s t.
Proof.
  intros [Q L]. exists (replace_backslashes s). split; [|apply replaced_slashes].
  change (replace_backslashes (quote :: s ++ quote :: rest)) with (quote :: replace_backslashes (s ++ quote :: rest)).
  unfold replace_backslashes. rewrite map_app. cbn [map]. change (if Ascii.eqb quote backslash then "/" else quote) with quote. fold (replace_backslashes s). fold (replace_backslashes rest).
  apply read_plain; [|apply replaced_none]. split; intros X; apply replaced_in in X as [X|X]; try contradiction; discriminate.
Qed.

(** *** Literals *)
Lemma digits_ok base (P : ascii -> Prop) : (forall c, (digit_val c <? base)%Z = true <-> P c) -> forall n l r, scan_digits base n l = (0, r)%nat <-> exists d, l = d ++ r /\ length d = n /\ Forall P d.
Proof.
  intros HP. induction n as [|n IH]; intros l r; cbn [scan_digits].
  - split; [intros H; injection H as ->; exists []; repeat split; constructor|intros (d & -> & L & _); destruct d; [reflexivity|discriminate]].
  - destruct l as [|c l]; [split; [discriminate|intros (d & E & L & _); destruct d; discriminate]|]. destruct (digit_val c <? base)%Z eqn:Ec.
    + rewrite IH. split.
      * intros (d & -> & L & F). exists (c :: d). split; [reflexivity|]. split; [cbn; lia|]. constructor; [apply HP; exact Ec|exact F].
      * intros (d & E & L & F). destruct d as [|x d]; [discriminate|]. cbn in E. injection E as <- ->. inversion F; subst. exists d. split; [reflexivity|]. split; [cbn in L; lia|assumption].
    + split; [discriminate|]. intros (d & E & L & F). destruct d as [|x d]; [discriminate|]. cbn in E. injection E as <- ->. inversion F as [|? ? F1 F2]; subst. apply HP in F1. congruence.
Qed.
Lemma octal_val c : (digit_val c <? 8)%Z = true <-> octal_digit c.
Proof.
  unfold digit_val, octal_digit. cbv zeta. rewrite Z.ltb_lt.
  destruct ((48 <=? Z.of_nat (nat_of_ascii c)) && (Z.of_nat (nat_of_ascii c) <=? 57))%Z eqn:E1; [apply andb_prop in E1 as [A B]; apply Z.leb_le in A, B; lia|].
  destruct ((97 <=? Z.of_nat (nat_of_ascii c)) && (Z.of_nat (nat_of_ascii c) <=? 102))%Z eqn:E2; [apply andb_prop in E2 as [A B]; apply Z.leb_le in A, B; lia|].
  destruct ((65 <=? Z.of_nat (nat_of_ascii c)) && (Z.of_nat (nat_of_ascii c) <=? 70))%Z eqn:E3; [apply andb_prop in E3 as [A B]; apply Z.leb_le in A, B; lia|].
  apply andb_false_iff in E1. rewrite !Z.leb_gt in E1. split; [lia|]. lia.
Qed.
Lemma hex_val c : (digit_val c <? 16)%Z = true <-> hexadecimal_digit c.
Proof.
  unfold digit_val, hexadecimal_digit. cbv zeta. rewrite Z.ltb_lt.
  destruct ((48 <=? Z.of_nat (nat_of_ascii c)) && (Z.of_nat (nat_of_ascii c) <=? 57))%Z eqn:E1; [apply andb_prop in E1 as [A B]; apply Z.leb_le in A, B; lia|].
  destruct ((97 <=? Z.of_nat (nat_of_ascii c)) && (Z.of_nat (nat_of_ascii c) <=? 102))%Z eqn:E2; [apply andb_prop in E2 as [A B]; apply Z.leb_le in A, B; lia|].
  destruct ((65 <=? Z.of_nat (nat_of_ascii c)) && (Z.of_nat (nat_of_ascii c) <=? 70))%Z eqn:E3; [apply andb_prop in E3 as [A B]; apply Z.leb_le in A, B; lia|].
  apply andb_false_iff in E1, E2, E3. rewrite !Z.leb_gt in E1, E2, E3. lia.
Qed.
Lemma escape_ok l r : scan_escape l = (0, r)%nat <->
  (exists c, l = c :: r /\ In c ["a"; "b"; "f"; "n"; "r"; "t"; "v"; backslash; quote]) \/
  (exists d, l = d ++ r /\ length d = 3%nat /\ Forall octal_digit d) \/
  (exists c n d, l = c :: d ++ r /\ In (c, n) [("x", 2); ("u", 4); ("U", 8)]%nat /\ length d = n /\ Forall hexadecimal_digit d).
Proof.
  destruct l as [|c l]; cbn [scan_escape].
  { split; [discriminate|]. intros [(c & E & _)|[(d & E & L & _)|(c & n & d & E & _)]]; try discriminate. destruct d; discriminate. }
  set (letters := ["a"; "b"; "f"; "n"; "r"; "t"; "v"; backslash; quote]).
  assert (EX : existsb (Ascii.eqb c) letters = true <-> In c letters).
  { rewrite existsb_exists. split; [intros (x & I & E); apply Ascii.eqb_eq in E; subst x; exact I|intros I; exists c; split; [exact I|apply Ascii.eqb_refl]]. }
  assert (LO : forall x, In x letters -> ~ octal_digit x) by (intros x I; cbn in I; unfold octal_digit; repeat (destruct I as [<-|I]; [cbv; lia|]); destruct I).
  assert (XO : forall x n, In (x, n) [("x", 2); ("u", 4); ("U", 8)]%nat -> ~ octal_digit x /\ ~ In x letters).
  { intros x n I. cbn [In] in I. repeat (destruct I as [I|I]; [injection I as <- <-; split; [unfold octal_digit; cbv; lia|cbn; intuition discriminate]|]). destruct I. }
  destruct (existsb (Ascii.eqb c) letters) eqn:E1.
  - pose proof (proj1 EX eq_refl) as I. split.
    + intros H. injection H as ->. left. exists c. split; [reflexivity|exact I].
    + intros [(x & E & _)|[(d & E & L & F)|(x & n & d & E & J & _)]].
      * injection E as _ ->. reflexivity.
      * destruct d as [|x d]; [discriminate|]. cbn in E. injection E as <- _. inversion F; subst. exfalso. apply (LO c I). assumption.
      * injection E as <- _. exfalso. apply (proj2 (XO _ _ J)). exact I.
  - assert (NI : ~ In c letters) by (intros I; apply EX in I; discriminate). destruct (digit_val c <? 8)%Z eqn:E2.
    + rewrite (digits_ok 8 octal_digit octal_val). split; [intros (d & E & L & F); right; left; exists d; auto|].
      intros [(x & E & J)|[X|(x & n & d & E & J & _)]]; [injection E as <- _; contradiction|exact X|]. injection E as <- _. apply octal_val in E2. exfalso. apply (proj1 (XO _ _ J)). exact E2.
    + assert (NO : ~ octal_digit c) by (intros O'; apply octal_val in O'; congruence).
      assert (G : forall n, In (c, n) [("x", 2); ("u", 4); ("U", 8)]%nat -> (forall m, In (c, m) [("x", 2); ("u", 4); ("U", 8)]%nat -> m = n) -> (scan_digits 16 n l = (0, r)%nat <->
        (exists c0, c :: l = c0 :: r /\ In c0 letters) \/ (exists d, c :: l = d ++ r /\ length d = 3%nat /\ Forall octal_digit d) \/
        (exists c0 n0 d, c :: l = c0 :: d ++ r /\ In (c0, n0) [("x", 2); ("u", 4); ("U", 8)]%nat /\ length d = n0 /\ Forall hexadecimal_digit d))).
      { intros n J U. rewrite (digits_ok 16 hexadecimal_digit hex_val). split.
        - intros (d & -> & L & F). right. right. exists c, n, d. auto.
        - intros [(x & E & K)|[(d & E & L & F)|(x & m & d & E & K & L & F)]].
          + injection E as <- _. contradiction.
          + destruct d as [|x d]; [discriminate|]. cbn in E. injection E as <- _. inversion F; subst. contradiction.
          + injection E as <- ->. exists d. rewrite <- (U m K). auto. }
      assert (UQ : forall x n, c = x -> In (x, n) [("x", 2); ("u", 4); ("U", 8)]%nat -> forall m, In (c, m) [("x", 2); ("u", 4); ("U", 8)]%nat -> m = n).
      { intros x n -> J m K. cbn [In] in J, K. intuition congruence. }
      destruct (Ascii.eqb_spec c "x") as [->|N1]; [apply G; [cbn; auto|apply (UQ "x" 2%nat); [reflexivity|cbn; auto]]|].
      destruct (Ascii.eqb_spec c "u") as [->|N2]; [apply G; [cbn; auto|apply (UQ "u" 4%nat); [reflexivity|cbn; auto]]|].
      destruct (Ascii.eqb_spec c "U") as [->|N3]; [apply G; [cbn; auto|apply (UQ "U" 8%nat); [reflexivity|cbn; auto]]|].
      split; [discriminate|]. intros [(x & E & J)|[(d & E & L & F)|(x & n & d & E & J & _)]].
      * injection E as <- _. contradiction.
      * destruct d as [|x d]; [discriminate|]. cbn in E. injection E as <- _. inversion F; subst. contradiction.
      * injection E as <- _. cbn [In] in J. intuition congruence.
Qed.
Lemma escape_shorter l e r : scan_escape l = (e, r) -> (length r <= length l)%nat.
Proof.
  assert (D : forall base n l e r, scan_digits base n l = (e, r) -> (length r <= length l)%nat).
  { intros base. induction n as [|n IH]; intros l0 e0 r0 H; cbn [scan_digits] in H; [injection H as <- <-; lia|]. destruct l0 as [|c l0]; [injection H as <- <-; lia|]. destruct (_ <? _)%Z; [apply IH in H; cbn; lia|injection H as <- <-; lia]. }
  destruct l as [|c l]; cbn [scan_escape]; [intros H; injection H as <- <-; lia|]. destruct (existsb _ _); [intros H; injection H as <- <-; cbn; lia|].
  destruct (_ <? _)%Z; [apply D|]. repeat (match goal with |- context [if ?b then _ else _] => destruct b end); try (intros H; apply D in H; cbn; lia). intros H; injection H as <- <-; cbn; lia.
Qed.
Lemma scan_go_literal : forall f l r, (length l < f)%nat -> scan_string f l = (0, r)%nat <-> exists s, go_literal s /\ l = s ++ quote :: r.
Proof.
  induction f as [|f IH]; intros l r Hf; [lia|]. cbn [scan_string]. destruct l as [|c l].
  { split; [discriminate|]. intros (s & _ & E). destruct s; discriminate. }
  destruct (Ascii.eqb_spec c quote) as [->|Nq].
  { split; [intros H; injection H as ->; exists []; split; [constructor|reflexivity]|]. intros (s & Ls & E). destruct Ls as [|c s A B C Ls|c s A Ls|d s L F Ls|c n d s A L F Ls]; cbn [app] in E; try (injection E as E _; try discriminate).
    - injection E as ->. reflexivity.
    - congruence. }
  destruct (Ascii.eqb_spec c newline) as [->|Nn].
  { split; [discriminate|]. intros (s & Ls & E). destruct Ls as [|c s A B C Ls|c s A Ls|d s L F Ls|c n d s A L F Ls]; cbn [app] in E; injection E as E _; try discriminate; congruence. }
  destruct (Ascii.eqb_spec c backslash) as [->|Nb].
  - destruct (scan_escape l) as [e r1] eqn:Ee. destruct (scan_string f r1) as [e2 r2] eqn:Es. pose proof (escape_shorter _ _ _ Ee) as Hl. cbn in Hf. split.
    + intros H. injection H as H1 ->. assert (e = 0 /\ e2 = 0)%nat as [-> ->] by lia. apply IH in Es; [|lia]. destruct Es as (s & Ls & ->). apply escape_ok in Ee as [(c & -> & I)|[(d & -> & L & F)|(c & n & d & -> & I & L & F)]].
      * exists (backslash :: c :: s). split; [apply L_letter; assumption|reflexivity].
      * exists (backslash :: d ++ s). split; [apply L_octal; assumption|]. cbn. now rewrite app_assoc.
      * exists (backslash :: c :: d ++ s). split; [eapply L_hex; eassumption|]. cbn. now rewrite app_assoc.
    + intros (s & Ls & E).
      assert (exists s', go_literal s' /\ scan_escape l = (0%nat, s' ++ quote :: r)) as (s' & L1 & L2).
      { destruct Ls as [|c s A B C Ls|c s A Ls|d s L F Ls|c n d s A L F Ls]; cbn [app] in E; try discriminate; [injection E as E _; congruence| | |]; injection E as ->; exists s; (split; [exact Ls|]); apply escape_ok.
        - left. exists c. auto.
        - right. left. exists d. rewrite <- app_assoc. auto.
        - right. right. exists c, n, d. rewrite <- app_assoc. auto. }
      rewrite L2 in Ee. injection Ee as <- <-. assert (X : scan_string f (s' ++ quote :: r) = (0, r)%nat) by (apply IH; [lia|exists s'; auto]). rewrite X in Es. injection Es as <- <-. reflexivity.
  - rewrite IH by (cbn in Hf; lia). split.
    + intros (s & Ls & ->). exists (c :: s). split; [apply L_char; assumption|reflexivity].
    + intros (s & Ls & E). destruct Ls as [|x s A B C Ls|x s A Ls|d s L F Ls|x n d s A L F Ls]; cbn [app] in E; try (injection E as E _; congruence). injection E as <- ->. exists s. auto.
Qed.
Theorem read_go_literal l rest : (exists t, read_str (quote :: l) = (0%nat, t, rest)) <-> exists s, go_literal s /\ l = s ++ quote :: rest.
Proof.
  unfold read_str. destruct (scan_string (S (length l)) l) as [e r] eqn:E. split.
  - intros (t & H). injection H as -> _ ->. apply scan_go_literal in E; [exact E|lia].
  - intros H. apply (scan_go_literal (S (length l))) in H; [|lia]. rewrite H in E. injection E as <- <-. eexists. reflexivity.
Qed.
