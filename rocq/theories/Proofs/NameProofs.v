(** Proofs about names in MQO files. *)
From Coq Require Import String Ascii List ZArith Bool Lia.
From Verif.Model Require Import MqoCodePage MqoNames.
From Verif Require Import Spec.NameSpec Spec.CodePageSpec Proofs.CodePageProofs.
Import ListNotations.
Local Open Scope list_scope.
Local Open Scope char_scope.

Lemma digit_octal c : (digit_val c <? 8)%Z = true <-> octal c.
Proof.
  split.
  - destruct c as [[] [] [] [] [] [] [] []]; intros H; first [discriminate H | unfold octal; cbn; auto 20].
  - intros H. cbn in H. repeat (destruct H as [<-|H]; [reflexivity|]). destruct H.
Qed.
Lemma digit_hex c : (digit_val c <? 16)%Z = true <-> hexadecimal c.
Proof.
  split.
  - destruct c as [[] [] [] [] [] [] [] []]; intros H; first [discriminate H | unfold hexadecimal; cbn; auto 30].
  - intros H. cbn in H. repeat (destruct H as [<-|H]; [reflexivity|]). destruct H.
Qed.

Lemma digits_some base : forall n l r, scan_digits base n l = (0%nat, r) ->
  exists ds, l = ds ++ r /\ length ds = n /\ Forall (fun c => (digit_val c <? base)%Z = true) ds.
Proof.
  induction n as [|n IH]; intros l r H; cbn [scan_digits] in H.
  - injection H as ->. exists []. repeat split. constructor.
  - destruct l as [|c l]; [discriminate|]. destruct (digit_val c <? base)%Z eqn:D; [|discriminate].
    destruct (IH _ _ H) as (ds & -> & L & F). exists (c :: ds). repeat split; [cbn; congruence|constructor; assumption].
Qed.
Lemma digits_all base : forall ds r, Forall (fun c => (digit_val c <? base)%Z = true) ds -> scan_digits base (length ds) (ds ++ r) = (0%nat, r).
Proof. induction ds as [|c ds IH]; intros r F; [reflexivity|]. inversion F; subst. cbn [length app scan_digits]. rewrite H1. apply IH. assumption. Qed.

Definition simple : list ascii := ["a"; "b"; "f"; "n"; "r"; "t"; "v"; backslash; quote].
Lemma simple_spec c : existsb (Ascii.eqb c) simple = true <-> In c simple.
Proof. rewrite existsb_exists. split; [intros (x & I & E); apply Ascii.eqb_eq in E; subst; exact I|intros I; exists c; split; [exact I|apply Ascii.eqb_refl]]. Qed.

(** What an escape is. *)
Inductive escape : text -> Prop :=
| e_simple c : In c simple -> escape [c]
| e_octal ds : length ds = 3%nat -> Forall octal ds -> escape ds
| e_hex k n ds : In (k, n) [("x", 2%nat); ("u", 4%nat); ("U", 8%nat)] -> length ds = n -> Forall hexadecimal ds -> escape (k :: ds).
Lemma escape_some l r : scan_escape l = (0%nat, r) -> exists x, escape x /\ l = x ++ r.
Proof.
  destruct l as [|c l]; [discriminate|]. cbn [scan_escape]. fold simple. intros H.
  destruct (existsb (Ascii.eqb c) simple) eqn:S1; [injection H as ->; exists [c]; split; [constructor; apply simple_spec; exact S1|reflexivity]|].
  destruct (digit_val c <? 8)%Z.
  { destruct (digits_some _ _ _ _ H) as (ds & E & L & F). exists ds. split; [|exact E]. apply e_octal; [exact L|]. eapply Forall_impl; [|exact F]. intros; apply digit_octal; assumption. }
  destruct (Ascii.eqb_spec c "x") as [->|_];
    [|destruct (Ascii.eqb_spec c "u") as [->|_]; [|destruct (Ascii.eqb_spec c "U") as [->|_]; [|discriminate]]];
    destruct (digits_some _ _ _ _ H) as (ds & E & L & F); eexists (_ :: ds); (split; [|cbn [app]; rewrite E; reflexivity]);
    (eapply e_hex; [|exact L|eapply Forall_impl; [|exact F]; intros; apply digit_hex; assumption]); cbn; auto.
Qed.
Lemma escape_all x r : escape x -> scan_escape (x ++ r) = (0%nat, r).
Proof.
  intros [c H|ds L F|k n ds I L F].
  - cbn [app scan_escape]. fold simple. apply simple_spec in H. rewrite H. reflexivity.
  - assert (F' : Forall (fun c => (digit_val c <? 8)%Z = true) ds) by (eapply Forall_impl; [|exact F]; intros; apply digit_octal; assumption).
    pose proof (digits_all 8 ds r F') as G. rewrite L in G. destruct ds as [|c ds]; [discriminate|]. cbn [app scan_escape] in *. fold simple.
    inversion F' as [|? ? D _]; subst. inversion F as [|? ? O _]; subst. rewrite D.
    destruct (existsb (Ascii.eqb c) simple) eqn:S1; [|exact G].
    exfalso. revert S1. clear - O. cbn in O. repeat (destruct O as [<-|O]; [discriminate|]). destruct O.
  - assert (F' : Forall (fun c => (digit_val c <? 16)%Z = true) ds) by (eapply Forall_impl; [|exact F]; intros; apply digit_hex; assumption).
    pose proof (digits_all 16 ds r F') as G. rewrite L in G.
    destruct I as [I|[I|[I|[]]]]; injection I as <- <-; exact G.
Qed.
Lemma escape_nonempty x : escape x -> (0 < length x)%nat.
Proof. intros [c H|ds L F|k n ds I L F]; cbn; lia. Qed.
Lemma escape_literal x s : escape x -> literal s -> literal (backslash :: x ++ s).
Proof.
  intros [c H|ds L F|k n ds I L F] Hs.
  - apply lit_escape; [exact H|exact Hs].
  - destruct ds as [|a [|b [|c [|d ds]]]]; try discriminate. inversion F as [|? ? Ha F1]; subst. inversion F1 as [|? ? Hb F2]; subst. inversion F2 as [|? ? Hc _]; subst. apply lit_octal; assumption.
  - eapply lit_hex; eassumption.
Qed.
Lemma octal_plain c : octal c -> c <> quote /\ c <> nul.
Proof. intros H. cbn in H. repeat (destruct H as [<-|H]; [split; discriminate|]). destruct H. Qed.
Lemma hex_plain c : hexadecimal c -> c <> quote /\ c <> nul.
Proof. intros H. cbn in H. repeat (destruct H as [<-|H]; [split; discriminate|]). destruct H. Qed.
(** Only the escape of a quote has one. *)
Lemma escape_quote x : escape x -> x = [quote] \/ ~ In quote x.
Proof.
  intros [c H|ds L F|k n ds I L F].
  - destruct (ascii_dec c quote) as [->|N]; [left; reflexivity|right; intros [E|[]]; contradiction].
  - right. intros I. rewrite Forall_forall in F. destruct (octal_plain _ (F _ I)) as [A _]. contradiction.
  - right. intros [E|J]; [subst; destruct I as [I|[I|[I|[]]]]; discriminate|]. rewrite Forall_forall in F. destruct (hex_plain _ (F _ J)) as [A _]. contradiction.
Qed.
Lemma escape_nul x : escape x -> ~ In nul x.
Proof.
  intros [c H|ds L F|k n ds I L F].
  - intros [E|[]]. subst. cbn in H. repeat (destruct H as [H|H]; [discriminate|]). exact H.
  - intros I. rewrite Forall_forall in F. destruct (octal_plain _ (F _ I)) as [_ A]. contradiction.
  - intros [E|J]; [subst; destruct I as [I|[I|[I|[]]]]; discriminate|]. rewrite Forall_forall in F. destruct (hex_plain _ (F _ J)) as [_ A]. contradiction.
Qed.

Lemma scan_shorter : forall f l r, scan_string f l = (0%nat, r) -> (length r < length l)%nat.
Proof.
  induction f as [|f IH]; intros l r H; [discriminate|]. cbn [scan_string] in H. destruct l as [|c l]; [discriminate|].
  destruct (Ascii.eqb c quote); [injection H as ->; cbn; lia|]. destruct (Ascii.eqb c newline); [discriminate|].
  destruct (Ascii.eqb c backslash).
  - destruct (scan_escape l) as [e r1] eqn:E. destruct (scan_string f r1) as [e2 r2] eqn:G. injection H as H ->.
    assert (e = 0%nat) by lia. assert (e2 = 0%nat) by lia. subst. apply IH in G. apply escape_some in E. destruct E as (x & _ & ->). cbn. rewrite app_length. lia.
  - apply IH in H. cbn. lia.
Qed.
Lemma prefix_before (x : text) : forall s q r rest, ~ In q x -> s ++ q :: rest = x ++ r -> exists s2, s = x ++ s2 /\ r = s2 ++ q :: rest.
Proof.
  induction x as [|a x IH]; intros s q r rest N E; [exists s; split; [reflexivity|symmetry; exact E]|].
  destruct s as [|b s]; cbn [app] in E.
  - injection E as -> _. exfalso. apply N. left. reflexivity.
  - injection E as -> E. destruct (IH s q r rest) as (s2 & -> & ->); [intros I; apply N; right; exact I|exact E|]. exists s2. split; reflexivity.
Qed.
(** A literal that is read to its end is one. *)
Lemma scan_literal : forall f s rest, ~ In nul s -> scan_string f (s ++ quote :: rest) = (0%nat, rest) -> literal s.
Proof.
  induction f as [|f IH]; intros s rest Z H; [discriminate|]. destruct s as [|c s]; [constructor|]. cbn [app scan_string] in H.
  destruct (Ascii.eqb_spec c quote) as [->|Nq].
  { exfalso. injection H as H. apply (f_equal (@length ascii)) in H. rewrite app_length in H. cbn in H. lia. }
  destruct (Ascii.eqb_spec c newline) as [->|Nl]; [discriminate|].
  destruct (Ascii.eqb_spec c backslash) as [->|Nb].
  - destruct (scan_escape (s ++ quote :: rest)) as [e r1] eqn:E. destruct (scan_string f r1) as [e2 r2] eqn:G. injection H as H ->.
    assert (e = 0%nat) by lia. assert (e2 = 0%nat) by lia. subst. destruct (escape_some _ _ E) as (x & Hx & X).
    assert (P : exists s2, s = x ++ s2 /\ r1 = s2 ++ quote :: rest).
    { destruct (escape_quote _ Hx) as [->|N].
      - destruct s as [|b s]; cbn [app] in X; injection X as X.
        + exfalso. subst r1. apply scan_shorter in G. lia.
        + subst b. exists s. split; [reflexivity|]. symmetry. assumption.
      - exact (prefix_before _ _ _ _ _ N X). }
    destruct P as (s2 & -> & ->). apply escape_literal; [exact Hx|]. apply (IH s2 rest); [|exact G]. intros I. apply Z. right. apply in_or_app. right. exact I.
  - apply lit_char; [|apply (IH s rest); [intros I; apply Z; right; exact I|exact H]].
    intros [<-|[<-|[<-|[<-|[]]]]]; [apply Nq|apply Nb|apply Nl|apply Z; left]; reflexivity.
Qed.
Lemma literal_cases s : literal s -> s = [] \/ (exists c r, s = c :: r /\ ~ In c [quote; backslash; newline; nul] /\ literal r) \/ (exists x r, s = backslash :: x ++ r /\ escape x /\ literal r).
Proof.
  intros [|c r H L|c r H L|a b c r Ha Hb Hc L|k n ds r I E F L]; [left; reflexivity|right; left; exists c, r; auto| | |].
  - right. right. exists [c], r. split; [reflexivity|]. split; [constructor; exact H|exact L].
  - right. right. exists [a; b; c], r. split; [reflexivity|]. split; [apply e_octal; [reflexivity|constructor; [exact Ha|constructor; [exact Hb|constructor; [exact Hc|constructor]]]]|exact L].
  - right. right. exists (k :: ds), r. split; [reflexivity|]. split; [eapply e_hex; eassumption|exact L].
Qed.
Lemma literal_scan : forall f s rest, literal s -> (length s < f)%nat -> scan_string f (s ++ quote :: rest) = (0%nat, rest).
Proof.
  induction f as [|f IH]; intros s rest L F; [lia|]. destruct (literal_cases _ L) as [->|[(c & r & -> & H & L')|(x & r & -> & Hx & L')]].
  - cbn [app scan_string]. rewrite Ascii.eqb_refl. reflexivity.
  - cbn [app scan_string].
    destruct (Ascii.eqb_spec c quote) as [->|_]; [exfalso; apply H; cbn; auto|]. destruct (Ascii.eqb_spec c newline) as [->|_]; [exfalso; apply H; cbn; auto|].
    destruct (Ascii.eqb_spec c backslash) as [->|_]; [exfalso; apply H; cbn; auto|]. apply IH; [exact L'|cbn in F; lia].
  - cbn [app scan_string]. change (Ascii.eqb backslash quote) with false. change (Ascii.eqb backslash newline) with false. rewrite Ascii.eqb_refl. cbv beta iota.
    rewrite <- app_assoc, escape_all by exact Hx. cbn [length] in F. rewrite app_length in F. pose proof (escape_nonempty _ Hx). rewrite IH; [reflexivity|exact L'|lia].
Qed.
Lemma literal_nul : forall n s, (length s < n)%nat -> literal s -> ~ In nul s.
Proof.
  induction n as [|n IH]; intros s B L; [lia|]. destruct (literal_cases _ L) as [->|[(c & r & -> & H & L')|(x & r & -> & Hx & L')]].
  - intros [].
  - intros [->|I]; [apply H; cbn; auto|]. apply (IH r); [cbn in B; lia|exact L'|exact I].
  - intros [E|I]; [discriminate|]. apply in_app_or in I. destruct I as [I|I]; [exact (escape_nul _ Hx I)|]. cbn in B. rewrite app_length in B. apply (IH r); [lia|exact L'|exact I].
Qed.

Lemma trim_left_start l t : trim_left_quote l <> quote :: t.
Proof. induction l as [|c l IH]; cbn [trim_left_quote]; [discriminate|]. destruct (Ascii.eqb_spec c quote) as [_|N]; [exact IH|]. intros E. injection E as E _. contradiction. Qed.
Lemma trim_end l t : trim_quotes l <> t ++ [quote].
Proof.
  unfold trim_quotes. intros E. apply (f_equal (@rev ascii)) in E. rewrite rev_involutive, rev_app_distr in E. exact (trim_left_start _ _ E).
Qed.
Lemma trim_left_id s : (forall t, s <> quote :: t) -> trim_left_quote s = s.
Proof. destruct s as [|c s]; [reflexivity|]. intros H. cbn [trim_left_quote]. destruct (Ascii.eqb_spec c quote) as [->|_]; [exfalso; exact (H s eq_refl)|reflexivity]. Qed.
Lemma trim_kept s : (forall t, s <> quote :: t) -> (forall t, s <> t ++ [quote]) -> trim_quotes (quote :: s ++ [quote]) = s.
Proof.
  intros A B. unfold trim_quotes. cbn [trim_left_quote]. rewrite Ascii.eqb_refl.
  destruct s as [|c s]; [reflexivity|]. rewrite (trim_left_id ((c :: s) ++ [quote])); [|intros t E; cbn [app] in E; injection E as -> _; exact (A s eq_refl)].
  rewrite rev_app_distr. cbn [rev app trim_left_quote]. rewrite Ascii.eqb_refl. change (rev s ++ [c]) with (rev (c :: s)). rewrite trim_left_id; [apply rev_involutive|].
  intros t E. apply (f_equal (@rev ascii)) in E. rewrite rev_involutive in E. cbn [rev] in E. exact (B _ E).
Qed.
Lemma literal_start s : literal s -> forall t, s <> quote :: t.
Proof. intros L t ->. destruct (literal_cases _ L) as [E|[(c & r & E & H & _)|(x & r & E & _)]]; [discriminate| |discriminate]. injection E as <- _. apply H. cbn. auto. Qed.

Lemma consumed s rest : firstn (length (quote :: s ++ quote :: rest) - length rest) (quote :: s ++ quote :: rest) = quote :: s ++ [quote].
Proof.
  replace (length (quote :: s ++ quote :: rest) - length rest)%nat with (length (quote :: s ++ [quote])) by (cbn [length]; rewrite !app_length; cbn [length]; lia).
  replace (quote :: s ++ quote :: rest) with ((quote :: s ++ [quote]) ++ rest) by (cbn [app]; rewrite <- app_assoc; reflexivity).
  rewrite firstn_app, Nat.sub_diag, firstn_all. cbn [firstn]. apply app_nil_r.
Qed.
Lemma no_nul l : count_occ ascii_dec l nul = 0%nat <-> ~ In nul l.
Proof. symmetry. apply count_occ_not_In. Qed.

Theorem name_back s rest : read_name (written_name s rest) = (0%nat, s, rest) <-> kept_name s.
Proof.
  unfold written_name, read_name, read_str, kept_name. split.
  - destruct (scan_string (S (length (s ++ quote :: rest))) (s ++ quote :: rest)) as [e r] eqn:E. intros H. apply pair_equal_spec in H. destruct H as [H H2]. apply pair_equal_spec in H. destruct H as [H0 H1]. subst r.
   
    rewrite consumed in H0. assert (e = 0%nat) by lia. subst e.
    assert (Z : ~ In nul s). { intros I. assert (C : count_occ ascii_dec (quote :: s ++ [quote]) nul = 0%nat) by lia. apply no_nul in C. apply C. right. apply in_or_app. left. exact I. }
    split; [exact (scan_literal _ _ _ Z E)|]. intros t X. rewrite <- H1 in X. exact (trim_end _ _ X).
  - intros [L B]. rewrite literal_scan; [|exact L|rewrite app_length; cbn; lia]. cbv beta iota. rewrite consumed. f_equal. f_equal.
    + cbn [Nat.add]. apply no_nul. intros [E|I]; [discriminate|]. apply in_app_or in I. destruct I as [I|[I|[]]]; [|discriminate]. exact (literal_nul _ _ (Nat.lt_succ_diag_r _) L I).
    + apply trim_kept; [exact (literal_start _ L)|exact B].
Qed.

Lemma replaced_literal s : kept_texture s -> literal (replace_backslashes s).
Proof.
  induction s as [|c s IH]; intros F; [constructor|]. inversion F; subst. unfold replace_backslashes. cbn [map]. apply lit_char; [|apply IH; assumption].
  destruct (Ascii.eqb_spec c backslash) as [->|N]; [intros [E|[E|[E|[E|[]]]]]; discriminate|].
  intros [E|[E|[E|[E|[]]]]]; [apply H1; cbn; auto|apply N; symmetry; exact E|apply H1; cbn; auto|apply H1; cbn; auto].
Qed.
Lemma literal_replaced : forall s, literal (replace_backslashes s) -> kept_texture s.
Proof.
  induction s as [|c s IH]; intros L; [constructor|]. destruct (literal_cases _ L) as [E|[(d & r & E & H & L')|(x & r & E & _)]]; [discriminate| |].
  - unfold replace_backslashes in E. cbn [map] in E. injection E as E1 E2. subst. constructor; [|apply IH; exact L'].
    intros [E|[E|[E|[]]]]; subst c; apply H; cbn; auto.
  - exfalso. apply (replaced_none (c :: s)). rewrite E. left. reflexivity.
Qed.
Lemma texture_end s t : kept_texture s -> replace_backslashes s <> t ++ [quote].
Proof.
  intros F E. assert (I : In quote (replace_backslashes s)) by (rewrite E; apply in_or_app; right; left; reflexivity).
  apply replaced_in in I. destruct I as [I|I]; [|discriminate]. unfold kept_texture in F. rewrite Forall_forall in F. apply (F _ I). left. reflexivity.
Qed.
Theorem texture_back s rest : read_name (written_texture s rest) = (0%nat, replace_backslashes s, rest) <-> kept_texture s.
Proof.
  change (written_texture s rest) with (written_name (replace_backslashes s) rest). rewrite name_back. split.
  - intros [L _]. apply literal_replaced. exact L.
  - intros F. split; [apply replaced_literal; exact F|intros t; apply texture_end; exact F].
Qed.

(** Line ends and NUL make a file unreadable. *)
Lemma scan_newline : forall s f rest, ~ In quote s -> ~ In backslash s -> In newline s -> (length s < f)%nat -> fst (scan_string f (s ++ quote :: rest)) = 1%nat.
Proof.
  induction s as [|c s IH]; intros f rest Q B L F; [destruct L|]. destruct f as [|f]; [lia|]. cbn [app scan_string].
  destruct (Ascii.eqb_spec c quote) as [->|_]; [exfalso; apply Q; left; reflexivity|].
  destruct (Ascii.eqb_spec c newline) as [->|Nl]; [reflexivity|].
  destruct (Ascii.eqb_spec c backslash) as [->|_]; [exfalso; apply B; left; reflexivity|].
  apply IH; [intros X; apply Q; right; exact X|intros X; apply B; right; exact X|destruct L as [L|L]; [exfalso; apply Nl; exact L|exact L]|cbn in F; lia].
Qed.
Theorem name_fails s rest : ~ In quote s -> ~ In backslash s -> In newline s \/ In nul s -> parse_fails (fst (fst (read_name (written_name s rest)))) = true.
Proof.
  intros Q B H. assert (G : fst (fst (read_name (written_name s rest))) <> 0%nat).
  { unfold written_name, read_name, read_str. destruct (scan_string (S (length (s ++ quote :: rest))) (s ++ quote :: rest)) as [e r] eqn:E. cbv beta iota. cbn [fst].
    destruct (in_dec ascii_dec newline s) as [L|L].
    - pose proof (scan_newline s (S (length (s ++ quote :: rest))) rest Q B L) as X. rewrite E in X. cbn [fst] in X.
      rewrite X by (rewrite app_length; cbn; lia). lia.
    - destruct H as [H|H]; [contradiction|]. rewrite scan_plain in E; [|exact Q|exact L|exact B|rewrite app_length; cbn; lia]. injection E as <- <-. rewrite consumed. cbn [Nat.add].
      intros Z. apply no_nul in Z. apply Z. right. apply in_or_app. left. exact H. }
  unfold parse_fails. destruct (Nat.eqb_spec (fst (fst (read_name (written_name s rest)))) 0); [contradiction|reflexivity].
Qed.
