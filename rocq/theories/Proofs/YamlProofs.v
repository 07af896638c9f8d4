From Coq Require Import String Ascii List ZArith Bool Lia.
From Verif.Model Require Import UnityYaml.
From Verif.Spec Require Import YamlSpec.
Import ListNotations.
Local Open Scope list_scope.
Local Open Scope char_scope.

Lemma next_line_cut l r : one_line l -> next_line (l ++ nl :: r) = r.
Proof.
  intros H. induction l as [|c l IH]; [reflexivity|]. cbn [app next_line]. destruct (Ascii.eqb_spec c nl) as [->|N]; [exfalso; apply H; left; reflexivity|]. apply IH. intros I. apply H. right. exact I.
Qed.
Lemma next_line_short l : l <> [] -> (length (next_line l) < length l)%nat.
Proof.
  intros H. assert (G : forall q : bytes, (length (next_line q) <= length q)%nat) by (induction q as [|c q IH]; [apply le_n|]; cbn [next_line length]; destruct (Ascii.eqb c nl); lia).
  destruct l as [|c l]; [contradiction|]. cbn [next_line length]. specialize (G l). destruct (Ascii.eqb c nl); lia.
Qed.
Lemma next_line_le l : (length (next_line l) <= length l)%nat.
Proof. destruct l as [|c l]; [apply le_n|]. pose proof (next_line_short (c :: l) ltac:(discriminate)). lia. Qed.
Lemma skip_le l : (length (skip_blanks l) <= length l)%nat.
Proof. induction l as [|c l IH]; [apply le_n|]. cbn [skip_blanks]. destruct (is_blank c); cbn [length]; lia. Qed.
Lemma take_le l : (length (snd (take_token l)) <= length l)%nat.
Proof. induction l as [|c l IH]; [apply le_n|]. cbn [take_token]. destruct (Ascii.eqb c nl || is_blank c); [apply le_n|]. destruct (take_token l) as [t q]. cbn [snd length] in *. lia. Qed.
Lemma read_le l : (length (snd (read_token l)) <= length l)%nat.
Proof. unfold read_token. pose proof (skip_le l). pose proof (take_le (skip_blanks l)). lia. Qed.

(** *** Tokens *)
Lemma stop_char c : Ascii.eqb c nl || is_blank c = true <-> c = nl \/ c = " " \/ c = cr.
Proof. unfold is_blank. rewrite !orb_true_iff, !Ascii.eqb_eq. tauto. Qed.
Lemma take_word w r : Forall (fun c => c <> nl /\ c <> " " /\ c <> cr) w -> (r = [] \/ exists c q, r = c :: q /\ (c = nl \/ c = " " \/ c = cr)) -> take_token (w ++ r) = (w, r).
Proof.
  intros H Hr. induction H as [|c w Hc H IH].
  - cbn [app]. destruct Hr as [->|(c & q & -> & Hc)]; [reflexivity|]. cbn [take_token]. apply stop_char in Hc. rewrite Hc. reflexivity.
  - cbn [app take_token]. destruct (Ascii.eqb c nl || is_blank c) eqn:E; [apply stop_char in E; intuition congruence|]. rewrite IH. reflexivity.
Qed.
Lemma skip_word w r : word w -> skip_blanks (w ++ r) = w ++ r.
Proof.
  intros (N & H). destruct w as [|c w]; [contradiction|]. inversion H as [|? ? (H1 & H2 & H3) _]; subst. cbn [app skip_blanks]. unfold is_blank. destruct (Ascii.eqb_spec c " "); [contradiction|]. destruct (Ascii.eqb_spec c cr); [contradiction|]. reflexivity.
Qed.
Lemma read_word w r : word w -> (r = [] \/ exists c q, r = c :: q /\ (c = nl \/ c = " " \/ c = cr)) -> read_token (" " :: w ++ r) = (w, r).
Proof. intros W H. unfold read_token. change (skip_blanks (" " :: w ++ r)) with (skip_blanks (w ++ r)). rewrite skip_word by exact W. apply take_word; [apply W|exact H]. Qed.

Lemma tail_stop t r : tail_of t -> t ++ nl :: r = [] \/ exists c q, t ++ nl :: r = c :: q /\ (c = nl \/ c = " " \/ c = cr).
Proof. intros (_ & [->|(q & [->| ->])]); right; cbn [app]; eexists _, _; (split; [reflexivity|]); auto. Qed.
Lemma word_bang n : word n -> word ("!" :: n ++ ["!"]).
Proof. intros (_ & H). split; [discriminate|]. constructor; [repeat split; discriminate|]. apply Forall_app. split; [exact H|]. repeat constructor; discriminate. Qed.
Lemma trim_word n : ~ In "!" n -> trim_bang ("!" :: n ++ ["!"]) = n.
Proof.
  intros H. assert (T : forall l r, ~ In "!" l -> (l <> [] \/ r = []) -> trim_left (l ++ r) = l ++ r).
  { intros [|c l] r Hl D; [destruct D as [D| ->]; [contradiction|reflexivity]|]. cbn [app trim_left]. destruct (Ascii.eqb_spec c "!") as [->|_]; [exfalso; apply Hl; left; reflexivity|reflexivity]. }
  unfold trim_bang. cbn [trim_left]. rewrite Ascii.eqb_refl. destruct n as [|c n].
  - reflexivity.
  - rewrite T by (auto; left; discriminate). rewrite rev_app_distr. cbn [rev app]. cbn [trim_left]. rewrite Ascii.eqb_refl.
    pose proof (T (rev (c :: n)) [] ltac:(intros I; apply H, in_rev, I) ltac:(left; cbn [rev]; destruct (rev n); discriminate)) as E. rewrite app_nil_r in E. cbn [rev] in E. rewrite E. change (rev n ++ [c]) with (rev (c :: n)). apply rev_involutive.
Qed.
Lemma before_word h r : ~ In "!" h -> before_bang (h ++ "!" :: r) = h.
Proof.
  intros H. induction h as [|c h IH]; [reflexivity|]. cbn [app before_bang]. destruct (Ascii.eqb_spec c "!") as [->|_]; [exfalso; apply H; left; reflexivity|]. rewrite IH; [reflexivity|]. intros I. apply H. right. exact I.
Qed.
Lemma resolve_spec tags h s : ~ In "!" h -> resolve_tag tags ("!" :: h ++ "!" :: s) = Some (match tag_at tags h with Some v => v ++ s | None => "!" :: h ++ "!" :: s end).
Proof.
  intros H. unfold resolve_tag. rewrite Ascii.eqb_refl, before_word by exact H. cbv zeta. destruct (tag_at tags h) as [v|]; [|reflexivity].
  destruct (Nat.leb_spec (length h + 2) (length ("!" :: h ++ "!" :: s))) as [L|L]; [|cbn [length] in L; rewrite app_length in L; cbn [length] in L; lia].
  do 2 f_equal. replace (length h + 2)%nat with (S (length h + 1)) by lia. cbn [skipn]. rewrite skipn_app, skipn_all2 by lia. cbn [app]. replace (length h + 1 - length h)%nat with 1%nat by lia. reflexivity.
Qed.

(** *** Fuel *)
Lemma parse_fuel f : forall f' tags doc rest, (length rest <= f)%nat -> (length rest <= f')%nat -> parse_yaml f tags doc rest = parse_yaml f' tags doc rest.
Proof.
  induction f as [|f IH]; intros f' tags doc rest H H'.
  - destruct f' as [|f']; [reflexivity|]. cbn [parse_yaml]. destruct (Nat.leb_spec (length rest) 3); [reflexivity|lia].
  - destruct f' as [|f']; cbn [parse_yaml]; destruct (Nat.leb_spec (length rest) 3) as [L|L]; [reflexivity|lia|reflexivity|]. pose proof (read_le (skipn 4 rest)) as A. pose proof (read_le (skipn 3 rest)) as B. rewrite skipn_length in A, B.
    destruct (starts_tag rest).
    + destruct (read_token (skipn 4 rest)) as [name r1]. cbn [snd] in A. pose proof (read_le r1) as C. destruct (read_token r1) as [value r2]. cbn [snd] in C. pose proof (next_line_le r2). apply IH; lia.
    + destruct (starts_doc rest).
      * destruct (read_token (skipn 3 rest)) as [tag r1]. cbn [snd] in B. destruct (resolve_tag tags tag); [|reflexivity]. pose proof (read_le r1) as C. destruct (read_token r1) as [id r2]. cbn [snd] in C. pose proof (next_line_le r2). rewrite (IH f' tags _ (next_line r2)) by lia. reflexivity.
      * assert (rest <> []) by (intros ->; cbn in L; lia). pose proof (next_line_short rest H0). apply IH; lia.
Qed.
Definition go (tags : list (bytes * bytes)) (doc : option (bytes * bytes * bytes)) (rest : bytes) : option (list ydoc) := parse_yaml (length rest) tags doc rest.
Lemma go_unfold tags doc rest f : (length rest <= f)%nat -> parse_yaml f tags doc rest = go tags doc rest.
Proof. intros H. apply parse_fuel; [exact H|apply le_n]. Qed.

Lemma go_step tags doc rest : (4 <= length rest)%nat -> go tags doc rest =
  if starts_tag rest then go ((trim_bang (fst (read_token (skipn 4 rest))), fst (read_token (snd (read_token (skipn 4 rest))))) :: tags) doc (next_line (snd (read_token (snd (read_token (skipn 4 rest))))))
  else if starts_doc rest then
    match resolve_tag tags (fst (read_token (skipn 3 rest))) with
    | None => None
    | Some tag1 =>
        let q := read_token (snd (read_token (skipn 3 rest))) in
        match go tags (Some (tag1, trim_amp (fst q), next_line (snd q))) (next_line (snd q)) with
        | Some ds => Some (close_doc doc (skipn 3 rest) ++ ds)
        | None => None
        end
    end
  else go tags doc (next_line rest).
Proof.
  intros L. unfold go at 1. destruct (length rest) as [|f] eqn:E; [lia|]. cbn [parse_yaml]. rewrite E. destruct (Nat.leb_spec (S f) 3); [lia|].
  pose proof (read_le (skipn 4 rest)) as A. pose proof (read_le (skipn 3 rest)) as B. rewrite skipn_length, E in A, B.
  destruct (starts_tag rest).
  - destruct (read_token (skipn 4 rest)) as [name r1]. cbn [fst snd] in *. pose proof (read_le r1) as C. destruct (read_token r1) as [value r2]. cbn [fst snd] in *. pose proof (next_line_le r2). apply go_unfold. lia.
  - destruct (starts_doc rest).
    + destruct (read_token (skipn 3 rest)) as [tag r1]. cbn [fst snd] in *. destruct (resolve_tag tags tag) as [t|]; [|reflexivity]. cbv zeta. pose proof (read_le r1) as C. destruct (read_token r1) as [id r2]. cbn [fst snd] in *. pose proof (next_line_le r2). rewrite go_unfold by lia. reflexivity.
    + apply go_unfold. pose proof (next_line_short rest ltac:(intros ->; discriminate E)). lia.
Qed.
Lemma starts_tag_iff l : starts_tag l = true <-> exists r, l = "%" :: "T" :: "A" :: "G" :: r.
Proof.
  split.
  - destruct l as [|a [|b [|c [|d l]]]]; cbn [starts_tag]; try discriminate. rewrite !andb_true_iff, !Ascii.eqb_eq. intros (((-> & ->) & ->) & ->). eauto.
  - intros (r & ->). reflexivity.
Qed.
Lemma starts_doc_iff l : starts_doc l = true <-> exists r, l = "-" :: "-" :: "-" :: r.
Proof.
  split.
  - destruct l as [|a [|b [|c l]]]; cbn [starts_doc]; try discriminate. rewrite !andb_true_iff, !Ascii.eqb_eq. intros ((-> & ->) & ->). eauto.
  - intros (r & ->). reflexivity.
Qed.
Lemma plain_not l r : plain_line l -> starts_tag (l ++ nl :: r) = false /\ starts_doc (l ++ nl :: r) = false.
Proof.
  intros (O & A & B). split.
  - destruct (starts_tag (l ++ nl :: r)) eqn:E; [|reflexivity]. exfalso. apply starts_tag_iff in E as (q & E). destruct l as [|a [|b [|c [|d l]]]]; cbn [app] in E; try discriminate. injection E as -> -> -> -> _. apply (A l). reflexivity.
  - destruct (starts_doc (l ++ nl :: r)) eqn:E; [|reflexivity]. exfalso. apply starts_doc_iff in E as (q & E). destruct l as [|a [|b [|c l]]]; cbn [app] in E; try discriminate. injection E as -> -> -> _. apply (B l). reflexivity.
Qed.

(** One line that is neither directive nor start. *)
Lemma go_plain tags doc l r : plain_line l -> (4 <= length (l ++ nl :: r))%nat -> go tags doc (l ++ nl :: r) = go tags doc r.
Proof.
  intros P L. destruct (plain_not l r P) as (A & B). rewrite go_step by exact L. rewrite A, B, next_line_cut by apply P. reflexivity.
Qed.
Lemma go_lines tags doc ls r : Forall plain_line ls -> (4 <= length r)%nat -> go tags doc (concat (map line ls) ++ r) = go tags doc r.
Proof.
  intros P L. induction P as [|l ls Hl P IH]; [reflexivity|]. cbn [map concat]. unfold line at 1. rewrite <- !app_assoc. cbn [app]. rewrite go_plain; [exact IH|exact Hl|]. rewrite !app_length. cbn [length]. rewrite !app_length. lia.
Qed.
(** The last lines of the file. *)
Lemma go_end tags doc ls : Forall plain_line ls -> (forall b l, ls = b ++ [l] -> (3 <= length l)%nat) -> go tags doc (concat (map line ls)) = Some (close_doc doc []).
Proof.
  intros P H. induction P as [|l ls Hl P IH].
  - reflexivity.
  - cbn [map concat]. unfold line at 1. rewrite <- app_assoc. cbn [app]. rewrite go_plain; [|exact Hl|].
    + apply IH. intros b q E. apply (H (l :: b)). rewrite E. reflexivity.
    + rewrite app_length. cbn [length]. destruct ls as [|l' ls].
      * specialize (H [] l eq_refl). lia.
      * assert (exists b q, l' :: ls = b ++ [q]) as (b & q & E) by (destruct (exists_last (l := l' :: ls) ltac:(discriminate)) as (b & q & E); eauto).
        specialize (H (l :: b) q ltac:(rewrite E; reflexivity)). rewrite E, map_app, concat_app, app_length. cbn [map concat]. rewrite app_nil_r. unfold line at 2. rewrite (app_length q). cbn [length]. lia.
Qed.
(** A directive. *)
Lemma go_directive tags doc n v t r : word n -> ~ In "!" n -> word v -> tail_of t -> go tags doc (head_text (Directive n v t) ++ r) = go ((n, v) :: tags) doc r.
Proof.
  intros Wn Nn Wv Ht. cbn [head_text]. unfold line. set (l := list_ascii_of_string "%TAG !" ++ n ++ list_ascii_of_string "! " ++ v ++ t).
  assert (E : (l ++ [nl]) ++ r = "%" :: "T" :: "A" :: "G" :: " " :: ("!" :: n ++ ["!"]) ++ " " :: v ++ t ++ nl :: r).
  { unfold l. cbn [list_ascii_of_string]. repeat (rewrite <- app_assoc; cbn [app]). reflexivity. }
  rewrite E. rewrite go_step by (cbn [length]; lia). cbn [starts_tag]. rewrite !Ascii.eqb_refl. cbn [andb]. cbn [skipn]. rewrite (read_word ("!" :: n ++ ["!"])); [|apply word_bang, Wn|right; eexists _, _; split; [reflexivity|]; auto]. cbn [fst snd]. rewrite read_word; [|exact Wv|apply tail_stop, Ht]. cbn [fst snd]. rewrite trim_word by exact Nn. rewrite next_line_cut by apply Ht. reflexivity.
Qed.
Definition head_tags (tags : list (bytes * bytes)) (hs : list head_line) : list (bytes * bytes) :=
  fold_left (fun m h => match h with Directive n v _ => (n, v) :: m | Other _ => m end) hs tags.
Lemma go_head tags hs r : Forall head_ok hs -> (4 <= length r)%nat -> go tags None (concat (map head_text hs) ++ r) = go (head_tags tags hs) None r.
Proof.
  intros H L. revert tags. induction H as [|h hs Hh H IH]; intros tags; [reflexivity|]. cbn [map concat head_tags fold_left]. rewrite <- app_assoc. destruct h as [n v t|l].
  - destruct Hh as (A & B & C & D). rewrite go_directive by assumption. apply IH.
  - cbn [head_text head_ok] in *. unfold line. rewrite <- app_assoc. cbn [app]. rewrite go_plain; [apply IH|exact Hh|]. rewrite app_length. cbn [length]. rewrite app_length. lia.
Qed.
Definition tag_of (tags : list (bytes * bytes)) (d : sdoc) : bytes := match tag_at tags (sdHandle d) with Some v => v ++ sdSuffix d | None => "!" :: sdHandle d ++ "!" :: sdSuffix d end.
Lemma go_doc tags doc d r : sdoc_ok d -> go tags doc (sdoc_text d ++ r) =
  match go tags (Some (tag_of tags d, sdID d, sdoc_body d ++ r)) (sdoc_body d ++ r) with
  | Some ds => Some (close_doc doc (skipn 3 (sdoc_text d ++ r)) ++ ds)
  | None => None
  end.
Proof.
  intros (Wh & Nh & Ws & Wi & Ht & _). unfold sdoc_text, line.
  set (tok := "!" :: sdHandle d ++ "!" :: sdSuffix d). set (more := sdoc_body d ++ r).
  set (x := (_ ++ _) ++ r). assert (E : x = "-" :: "-" :: "-" :: " " :: tok ++ " " :: ("&" :: sdID d) ++ sdTail d ++ nl :: more).
  { unfold x, tok, more. cbn [list_ascii_of_string]. repeat (rewrite <- app_assoc; cbn [app]). reflexivity. }
  rewrite E. clear E x. rewrite go_step by (cbn [length]; lia). cbn [starts_tag starts_doc]. change (Ascii.eqb "-" "%") with false. rewrite !Ascii.eqb_refl. cbn [andb]. cbn [skipn].
  assert (Wt : word tok).
  { split; [discriminate|]. unfold tok. constructor; [repeat split; discriminate|]. apply Forall_app. split; [apply Wh|]. constructor; [repeat split; discriminate|apply Ws]. }
  assert (Wd : word ("&" :: sdID d)) by (split; [discriminate|]; constructor; [repeat split; discriminate|apply Wi]).
  rewrite (read_word tok); [|exact Wt|right; eexists _, _; split; [reflexivity|]; auto]. cbn [fst snd]. unfold tok at 1. rewrite resolve_spec by exact Nh. fold (tag_of tags d). rewrite (read_word ("&" :: sdID d)); [|exact Wd|apply tail_stop, Ht]. cbn [fst snd]. cbv zeta. rewrite next_line_cut by apply Ht.
  cbn [trim_amp]. rewrite Ascii.eqb_refl. reflexivity.
Qed.
Lemma slice_prefix c r : slice_from (c ++ r) r = c.
Proof. unfold slice_from. rewrite app_length. replace (length c + length r - length r)%nat with (length c) by lia. rewrite firstn_app, Nat.sub_diag, firstn_all. cbn [firstn]. apply app_nil_r. Qed.
Lemma doc_length d : (4 <= length (sdoc_text d))%nat.
Proof. unfold sdoc_text, line. repeat (rewrite app_length; cbn [length list_ascii_of_string]). lia. Qed.
Definition dashes : bytes := ["-"; "-"; "-"].
Lemma text_dashes d r : sdoc_text d ++ r = dashes ++ skipn 3 (sdoc_text d ++ r).
Proof. reflexivity. Qed.

(** The result: a document per document, with the start of the next one at the end of its body. *)
Fixpoint result (tags : list (bytes * bytes)) (ds : list sdoc) : list ydoc :=
  match ds with
  | [] => []
  | d :: r => mkYDoc (tag_of tags d) (sdID d) (sdoc_body d ++ match r with [] => [] | _ => dashes end) :: result tags r
  end.
Lemma go_docs tags : forall ds, Forall sdoc_ok ds -> long_end ds -> forall d, sdoc_ok d -> long_end (d :: ds) ->
  go tags (Some (tag_of tags d, sdID d, sdoc_body d ++ concat (map sdoc_text ds))) (sdoc_body d ++ concat (map sdoc_text ds)) = Some (result tags (d :: ds)).
Proof.
  induction ds as [|e ds IH]; intros F E d Hd Ed.
  - cbn [map concat]. rewrite app_nil_r. unfold sdoc_body at 2. rewrite go_end.
    + cbn [close_doc result]. pose proof (slice_prefix (sdoc_body d) []) as S. rewrite app_nil_r in S. rewrite S, app_nil_r. reflexivity.
    + apply Hd.
    + intros b l Eb. exact (Ed [] d eq_refl b l Eb).
  - inversion F as [|? ? He Fd]; subst. cbn [map concat]. unfold sdoc_body at 2. rewrite go_lines; [|apply Hd|rewrite app_length; pose proof (doc_length e); lia]. rewrite go_doc by exact He. rewrite IH; [|exact Fd| |exact He|exact E].
    + cbn [close_doc result]. cbn [app]. do 3 f_equal. rewrite text_dashes, app_assoc at 1. rewrite slice_prefix. reflexivity.
    + intros a x Ea. apply (E (e :: a) x). rewrite Ea. reflexivity.
Qed.
Theorem parse_file hs ds : Forall head_ok hs -> Forall sdoc_ok ds -> ds <> [] -> long_end ds -> parse_yaml_documents (file_text hs ds) = Some (result (head_tags [] hs) ds).
Proof.
  intros H F N E. unfold parse_yaml_documents, file_text. fold (go [] None (concat (map head_text hs) ++ concat (map sdoc_text ds))). destruct ds as [|d ds]; [contradiction|]. inversion F as [|? ? Hd Fd]; subst.
  cbn [map concat]. rewrite go_head; [|exact H|rewrite app_length; pose proof (doc_length d); lia]. rewrite go_doc by exact Hd. rewrite go_docs; [|exact Fd| |exact Hd|exact E].
  - reflexivity.
  - intros a x Ea. apply (E (d :: a) x). rewrite Ea. reflexivity.
Qed.
(** The tag of the tables is the meaning. *)
Lemma tag_head hs : forall tags k, tag_at (head_tags tags hs) k =
  match tag_at (head_tags [] hs) k with Some v => Some v | None => tag_at tags k end.
Proof.
  assert (G : forall hs tags, head_tags tags hs = head_tags [] hs ++ tags).
  { clear hs. induction hs as [|h hs IH]; intros tags; [reflexivity|]. cbn [head_tags fold_left]. fold (head_tags (match h with Directive n v _ => (n, v) :: tags | Other _ => tags end) hs). fold (head_tags (match h with Directive n v _ => [(n, v)] | Other _ => [] end) hs). destruct h; [|apply IH]. rewrite IH, (IH [_]), <- app_assoc. reflexivity. }
  intros tags k. rewrite G. induction (head_tags [] hs) as [|[a v] l IH]; [reflexivity|]. cbn [app tag_at]. destruct (bytes_eqb a k); [reflexivity|exact IH].
Qed.
Lemma tag_meaning hs d : meaning hs d (tag_of (head_tags [] hs) d).
Proof.
  unfold tag_of, meaning. set (k := sdHandle d). assert (B : forall a b, bytes_eqb a b = true <-> a = b) by (intros a b; unfold bytes_eqb; destruct (list_eq_dec ascii_dec a b); split; congruence).
  assert (G : match tag_at (head_tags [] hs) k with
              | Some v => exists a b t, hs = a ++ Directive k v t :: b /\ (forall v' t', ~ In (Directive k v' t') b)
              | None => forall v t, ~ In (Directive k v t) hs end).
  { induction hs as [|h hs IH]; [intros v t []|]. cbn [head_tags fold_left]. fold (head_tags (match h with Directive n v _ => [(n, v)] | Other _ => [] end) hs). rewrite tag_head. destruct (tag_at (head_tags [] hs) k) as [v|] eqn:E.
    - destruct IH as (a & b & t & -> & Hb). exists (h :: a), b, t. split; [reflexivity|exact Hb].
    - destruct h as [n v t|l].
      + cbn [tag_at]. destruct (bytes_eqb n k) eqn:Eb; [apply B in Eb; subst n; exists [], hs, t; split; [reflexivity|exact IH]|]. intros v' t' [X|X]; [|exact (IH _ _ X)]. injection X as -> _ _. assert (bytes_eqb k k = true) by (apply B; reflexivity). congruence.
      + cbn [tag_at]. intros v' t' [X|X]; [discriminate|exact (IH _ _ X)]. }
  destruct (tag_at (head_tags [] hs) k) as [v|].
  - left. destruct G as (a & b & t & E & Hb). exists a, b, v, t. auto.
  - right. auto.
Qed.
