(** The scanner splits the written text into the tokens that were written. *)
From Coq Require Import String Ascii List ZArith NArith Bool DecimalString DecimalN DecimalPos Lia.
From Verif.Model Require Import Num Vec Matrix Mqo MqoDoc MqoText MqoLex.
From Verif.Spec Require Import TextSpec.
From Verif.Proofs Require Import MqoTextProofs.
Import ListNotations.
Local Open Scope string_scope.
Local Open Scope list_scope.

Lemma str_app_assoc (a b c : string) : ((a ++ b) ++ c = a ++ (b ++ c))%string.
Proof. induction a; cbn; [reflexivity|now rewrite IHa]. Qed.
Lemma str_app_nil (a : string) : (a ++ "")%string = a.
Proof. induction a; cbn; [reflexivity|now rewrite IHa]. Qed.
Lemma str_len_app a b : String.length (a ++ b)%string = String.length a + String.length b.
Proof. induction a; cbn; [reflexivity|now rewrite IHa]. Qed.

(** ** Which characters may follow a token *)
Definition is_sep (c : ascii) : bool :=
  Ascii.eqb c " " || Ascii.eqb c "009" || Ascii.eqb c newline || Ascii.eqb c "(" || Ascii.eqb c ")" ||
  Ascii.eqb c "{" || Ascii.eqb c "}" || Ascii.eqb c "]".
Definition num_end (h : option ascii) : Prop := match h with None => True | Some c => is_sep c = true end.
Definition id_end (h : option ascii) : Prop := match h with None => True | Some c => is_ident c = false end.
Definition hd_of (s : string) (h : option ascii) : option ascii := match s with String c _ => Some c | EmptyString => h end.
Definition headof (l : list piece) (h : option ascii) : option ascii := hd_of (render l) h.

Lemma sep_cases c : is_sep c = true ->
  c = " "%char \/ c = "009"%char \/ c = newline \/ c = "("%char \/ c = ")"%char \/ c = "{"%char \/ c = "}"%char \/ c = "]"%char.
Proof.
  unfold is_sep. intros H. repeat (apply orb_true_iff in H as [H|H]); apply Ascii.eqb_eq in H; subst; tauto.
Qed.
Ltac seps H := apply sep_cases in H; destruct H as [->|[->|[->|[->|[->|[->|[->| ->]]]]]]].
Lemma num_end_id h : num_end h -> id_end h.
Proof. destruct h as [c|]; [|auto]. cbn. intros H. seps H; reflexivity. Qed.

(** ** Single tokens *)
Lemma lex_ident_ok s r : all_chars (fun c => is_ident c = true) s -> id_end (hd_of r None) -> lex_ident (s ++ r) = (s, r).
Proof.
  induction s as [|c s IH]; cbn [all_chars append lex_ident].
  - intros _ H. destruct r as [|c r]; [reflexivity|]. cbn in *. now rewrite H.
  - intros [-> Hs] H. now rewrite IH.
Qed.
Lemma lex_digits_app s r a b : lex_digits s = (a, b) -> num_end (hd_of r None) ->
  lex_digits (s ++ r) = (a, b ++ r)%string.
Proof.
  revert a b. induction s as [|c s IH]; intros a b; cbn [append lex_digits].
  - intros [= <- <-] H. destruct r as [|c r]; [reflexivity|]. cbn in H |- *. seps H; reflexivity.
  - destruct (is_digit c).
    + destruct (lex_digits s) as [a' b'] eqn:E. intros [= <- <-] H. now rewrite (IH _ _ eq_refl H).
    + intros [= <- <-] H. reflexivity.
Qed.
Lemma lex_frac_app s r a b : lex_frac s = (a, b) -> num_end (hd_of r None) -> lex_frac (s ++ r) = (a, b ++ r)%string.
Proof.
  intros E H. destruct s as [|c s].
  - injection E as <- <-. cbn [append]. destruct r as [|c r]; [reflexivity|]. cbn in H. seps H; reflexivity.
  - cbn [append]. unfold lex_frac in *.
    destruct (Ascii.eqb_spec c ".") as [->|Hc].
    + destruct (lex_digits s) as [a' b'] eqn:E'. injection E as <- <-. now rewrite (lex_digits_app _ _ _ _ E' H).
    + destruct c as [[] [] [] [] [] [] [] []]; try (injection E as <- <-; reflexivity); congruence.
Qed.
Lemma lex_exp_app s r a : lex_exp s = (a, ""%string) -> num_end (hd_of r None) -> lex_exp (s ++ r) = (a, r)%string.
Proof.
  intros E H. destruct s as [|c s].
  - injection E as <-. cbn [append]. destruct r as [|c r]; [reflexivity|]. cbn in H. seps H; reflexivity.
  - destruct (Ascii.eqb_spec c "e") as [->|Hc].
    2: { unfold lex_exp in E. destruct c as [[] [] [] [] [] [] [] []]; try discriminate E; congruence. }
    destruct s as [|d s].
    + injection E as <-. destruct r as [|c r]; [reflexivity|]. cbn in H. seps H; reflexivity.
    + destruct (Ascii.eqb_spec d "+") as [->|Hp]; [|destruct (Ascii.eqb_spec d "-") as [->|Hm]].
      * cbn in E |- *. destruct (lex_digits s) as [a' b'] eqn:E'. injection E as <- ->. now rewrite (lex_digits_app _ _ _ _ E' H).
      * cbn in E |- *. destruct (lex_digits s) as [a' b'] eqn:E'. injection E as <- ->. now rewrite (lex_digits_app _ _ _ _ E' H).
      * assert (G : forall t, lex_exp (String "e" (String d t)) = let (a, b) := lex_digits (String d t) in (String "e" a, b)).
        { intros t. destruct d as [[] [] [] [] [] [] [] []]; try reflexivity; congruence. }
        cbn [append]. rewrite G in E |- *. destruct (lex_digits (String d s)) as [a' b'] eqn:E'. injection E as <- ->.
        pose proof (lex_digits_app _ r _ _ E' H) as K. cbn [append] in K. now rewrite K.
Qed.
Lemma lex_number_app s r b : lex_number s = Some (b, s, ""%string) -> num_end (hd_of r None) ->
  lex_number (s ++ r) = Some (b, s, r).
Proof.
  intros E H. destruct s as [|c s]; [discriminate|]. cbn [append]. unfold lex_number in *. destruct (is_digit c); [|discriminate].
  change (String c (s ++ r)) with (String c s ++ r)%string.
  destruct (lex_digits (String c s)) as [d r1] eqn:E1. destruct (lex_frac r1) as [f r2] eqn:E2.
  destruct (lex_exp r2) as [e r3] eqn:E3. injection E as <- Es ->.
  rewrite (lex_digits_app _ _ _ _ E1 H), (lex_frac_app _ _ _ _ E2 H), (lex_exp_app _ _ _ E3 H). now rewrite Es.
Qed.
Lemma lex_string_ok s r : all_chars (fun c => str_char c = true) s -> lex_string (s ++ String """" r) = Some (s, r).
Proof.
  induction s as [|c s IH]; cbn [all_chars append lex_string]; [reflexivity|].
  intros [Hc Hs]. rewrite Hc, IH by assumption.
  unfold str_char in Hc. destruct (Ascii.eqb c """"); [discriminate|reflexivity].
Qed.

(** ** Well separated pieces *)
Definition piece_ok (p : piece) (h : option ascii) : Prop :=
  match p with
  | W s => all_chars (fun c => is_space c = true) s
  | K (TId s) => ident_ok s /\ id_end h
  | K (TNum b s) => lex_number s = Some (b, s, ""%string) /\ num_end h
  | K (TStr s) => all_chars (fun c => str_char c = true) s
  | K (TCh c) => is_punct c = true /\ (c = "."%char -> id_end h \/ exists x, h = Some x /\ is_letter x = true)
  | K TNL => True
  | K TEOF => False
  end.
Fixpoint wf (l : list piece) (h : option ascii) : Prop :=
  match l with [] => True | p :: r => piece_ok p (headof r h) /\ wf r h end.

Lemma lex_spaces w f s ts : all_chars (fun c => is_space c = true) w -> lex_fuel f s = Some ts ->
  lex_fuel (String.length w + f) (w ++ s) = Some ts.
Proof.
  intros Hw Hs. induction w as [|c w IH]; [exact Hs|]. destruct Hw as [Hc Hw].
  cbn [String.length Nat.add append lex_fuel lex1].
  destruct (Ascii.eqb_spec c newline) as [->|]; [discriminate Hc|]. rewrite Hc. now apply IH.
Qed.
Lemma lex_fuel_mono f s ts : lex_fuel f s = Some ts -> lex_fuel (S f) s = Some ts.
Proof.
  revert s ts. induction f as [|f IH]; [discriminate|]. intros s ts H.
  remember (S f) as g eqn:Eg. cbn [lex_fuel]. rewrite Eg in H. cbn [lex_fuel] in H.
  destruct (lex1 s) as [t r|r| |]; [|now apply IH|exact H|exact H].
  destruct (lex_fuel f r) eqn:E; [|discriminate]. rewrite (IH _ _ E). exact H.
Qed.
Lemma lex_fuel_le f g s ts : f <= g -> lex_fuel f s = Some ts -> lex_fuel g s = Some ts.
Proof. induction 1; [auto|]. intros H'. apply lex_fuel_mono; auto. Qed.
Lemma punct_other c : is_punct c = true ->
  Ascii.eqb c newline = false /\ is_space c = false /\ is_letter c = false /\ is_digit c = false /\ Ascii.eqb c """" = false.
Proof. unfold is_punct. intros H. repeat (apply orb_true_iff in H as [H|H]); apply Ascii.eqb_eq in H; subst; repeat split. Qed.
Lemma letter_other c : is_letter c = true -> Ascii.eqb c newline = false /\ is_space c = false.
Proof. destruct c as [[] [] [] [] [] [] [] []]; cbn; intros H; try discriminate H; auto. Qed.
Lemma digit_other c : is_digit c = true -> Ascii.eqb c newline = false /\ is_space c = false /\ is_letter c = false.
Proof. destruct c as [[] [] [] [] [] [] [] []]; cbn; intros H; try discriminate H; auto. Qed.
Lemma num_not_next r : num_end (hd_of r None) -> next_is (fun c => is_ident c || Ascii.eqb c ".") r = false.
Proof. destruct r as [|c r]; [reflexivity|]. cbn. intros H. seps H; reflexivity. Qed.

Lemma lex1_piece t r : piece_ok (K t) (hd_of r None) -> lex1 (piece_text (K t) ++ r) = LTok t r.
Proof.
  destruct t as [s|b s|s|c| |]; cbn [piece_ok piece_text text].
  - intros [Hi He]. destruct s as [|c s]; [destruct Hi|]. destruct Hi as [Hc Hs]. cbn [append lex1].
    destruct (letter_other c Hc) as [-> ->]. rewrite Hc.
    change (String c (s ++ r)) with (String c s ++ r)%string. rewrite lex_ident_ok; [reflexivity | | exact He].
    split; [unfold is_ident; now rewrite Hc | exact Hs].
  - intros [Hn He]. destruct s as [|c s]; [discriminate|]. cbn [append lex1].
    assert (Hd : is_digit c = true) by (cbn in Hn; destruct (is_digit c); [reflexivity|discriminate]).
    destruct (digit_other c Hd) as (-> & -> & ->). rewrite Hd.
    change (String c (s ++ r)) with (String c s ++ r)%string. rewrite (lex_number_app _ _ _ Hn He).
    now rewrite num_not_next.
  - intros Hs. unfold quote. rewrite str_app_assoc, str_app_assoc. cbn [append lex1].
    change (Ascii.eqb """" newline) with false. change (is_space """") with false. change (is_letter """") with false.
    change (is_digit """") with false. change (Ascii.eqb """" """") with true. cbn iota.
    now rewrite lex_string_ok.
  - intros [Hp Hd]. cbn [append lex1]. destruct (punct_other c Hp) as (-> & -> & -> & -> & ->). rewrite Hp.
    destruct (Ascii.eqb_spec c ".") as [->|]; [|reflexivity]. specialize (Hd eq_refl).
    destruct r as [|x r]; [reflexivity|]. cbn [next_is andb]. replace (is_digit x) with false; [reflexivity|].
    destruct Hd as [Hd|(y & [= <-] & Hl)].
    + cbn in Hd. unfold is_ident in Hd. apply orb_false_iff in Hd. now destruct Hd.
    + destruct (is_digit x) eqn:E; [|reflexivity]. destruct (digit_other x E) as (_ & _ & E'). congruence.
  - reflexivity.
  - intros [].
Qed.
Lemma headof_none l : headof l None = hd_of (render l) None.
Proof. reflexivity. Qed.
Lemma piece_nonempty t h : piece_ok (K t) h -> 1 <= String.length (piece_text (K t)).
Proof.
  destruct t as [s|b s|s|c| |]; cbn; intros H; try lia.
  - destruct s; [destruct (proj1 H)|cbn; lia].
  - destruct s; [destruct H; discriminate|cbn; lia].
Qed.
Theorem lex_render l : wf l None -> lex (render l) = Some (toks_of l).
Proof.
  intros H. unfold lex.
  assert (G : forall l, wf l None -> lex_fuel (S (String.length (render l))) (render l) = Some (toks_of l)).
  { clear. induction l as [|p l IH]; [reflexivity|]. intros [Hp Hl]. specialize (IH Hl). cbn [render]. rewrite str_len_app.
    destruct p as [s|t].
    - rewrite toks_W. cbn [piece_text]. replace (S (String.length s + String.length (render l))) with
        (String.length s + S (String.length (render l))) by lia. now apply lex_spaces.
    - rewrite headof_none in Hp. pose proof (piece_nonempty _ _ Hp) as L. cbn [lex_fuel].
      rewrite (lex1_piece t (render l) Hp). rewrite toks_K.
      assert (L' : S (String.length (render l)) <= String.length (piece_text (K t)) + String.length (render l)) by lia.
      rewrite (lex_fuel_le _ _ _ _ L' IH). reflexivity. }
  now apply G.
Qed.

(** ** The writer's pieces are well separated *)
Lemma render_app a b : render (a ++ b) = (render a ++ render b)%string.
Proof. induction a as [|p a IH]; [reflexivity|]. cbn [app render]. now rewrite IH, str_app_assoc. Qed.
Lemma headof_app a b h : headof (a ++ b) h = headof a (headof b h).
Proof. unfold headof. rewrite render_app. destruct (render a); reflexivity. Qed.
Lemma wf_app a b h : wf a (headof b h) -> wf b h -> wf (a ++ b) h.
Proof.
  induction a as [|p a IH]; [auto|]. cbn [app wf]. intros [Hp Ha] Hb. rewrite headof_app. split; [exact Hp|now apply IH].
Qed.
(** [good]: fine before a separator; [free]: fine before anything; [begins]: starts with a
    separator or is empty *)
Definition good l := forall h, num_end h -> wf l h.
Definition free l := forall h, wf l h.
Definition begins l := forall h, num_end h -> num_end (headof l h).
Lemma free_good l : free l -> good l.
Proof. intros H h _. apply H. Qed.
Lemma good_nil : good [].
Proof. intros h _. exact I. Qed.
Lemma free_nil : free [].
Proof. intros h. exact I. Qed.
Lemma begins_nil : begins [].
Proof. intros h H. exact H. Qed.
Lemma good_app a b : good a -> good b -> begins b -> good (a ++ b).
Proof. intros Ha Hb Hs h Hh. apply wf_app; auto. Qed.
Lemma free_app a b : free a -> free b -> free (a ++ b).
Proof. intros Ha Hb h. apply wf_app; auto. Qed.
Lemma good_free a b : good a -> free b -> begins b -> b <> [] -> (forall h, num_end (headof b h)) -> free (a ++ b).
Proof. intros Ha Hb Hs Hn He h. apply wf_app; auto. Qed.
Lemma begins_app a b : begins a -> begins b -> begins (a ++ b).
Proof. intros Ha Hb h Hh. rewrite headof_app. apply Ha, Hb, Hh. Qed.
Lemma starts a b : (forall h, num_end (headof a h)) -> forall h, num_end (headof (a ++ b) h).
Proof. intros H h. rewrite headof_app. apply H. Qed.
Lemma good_sp b : good b -> good (sp :: b).
Proof. intros H h Hh. split; [cbn; auto|now apply H]. Qed.
Lemma free_sp b : free b -> free (sp :: b).
Proof. intros H h. split; [cbn; auto|apply H]. Qed.
Lemma begins_sp b : begins (sp :: b).
Proof. intros h _. reflexivity. Qed.
Lemma good_end a : good a -> free (a ++ [NL]).
Proof. intros H h. apply wf_app; [apply H; reflexivity|]. split; exact I. Qed.
Lemma good_spaced xs : Forall good xs -> good (spaced xs).
Proof.
  induction 1 as [|x [|y ys] Hx Hxs IH]; [apply good_nil|exact Hx|].
  change (spaced (x :: y :: ys)) with (x ++ sp :: spaced (y :: ys)). apply good_app; [exact Hx | now apply good_sp | apply begins_sp].
Qed.
Lemma free_concat {A} (w : A -> list piece) xs : (forall x, In x xs -> free (w x)) -> free (concat (map w xs)).
Proof.
  induction xs as [|x xs IH]; intros H; [apply free_nil|]. cbn [map concat].
  apply free_app; [apply H; now left|]. apply IH. intros; apply H; now right.
Qed.
Definition tabs_ok (tb : string) : Prop := exists r, tb = String "009" r /\ all_chars (fun c => is_space c = true) r.
Lemma tabs1 : tabs_ok tab. Proof. exists ""%string; split; [reflexivity|exact I]. Qed.
Lemma tabs2 : tabs_ok (tab ++ tab). Proof. eexists; split; [reflexivity|repeat split]. Qed.
Lemma tabs3 : tabs_ok (tab ++ tab ++ tab). Proof. eexists; split; [reflexivity|repeat split]. Qed.
Lemma free_W tb b : tabs_ok tb -> free b -> free (W tb :: b).
Proof. intros (r & -> & Hr) H h. split; [split; [reflexivity|exact Hr]|apply H]. Qed.
Lemma free_line tb k x : tabs_ok tb -> ident_ok k -> good x -> free (line tb k x).
Proof.
  intros Ht Hk Hx. apply free_W; [exact Ht|]. intros h. split; [split; [exact Hk|reflexivity]|]. apply free_sp, good_end, Hx.
Qed.
Lemma free_close tb : tabs_ok tb \/ tb = ""%string -> free (close_line tb).
Proof.
  intros [Ht| ->]; unfold close_line.
  - destruct Ht as (r & -> & Hr). cbn [String.eqb app]. apply free_W; [eexists; split; [reflexivity|exact Hr]|].
    intros h. split; [split; [reflexivity|discriminate]|]. split; exact I.
  - intros h. split; [split; [reflexivity|discriminate]|]. split; exact I.
Qed.
Lemma free_open x : good x -> free (open_line x).
Proof.
  intros H h. unfold open_line. apply wf_app; [apply H; reflexivity|].
  split; [cbn; auto|]. split; [split; [reflexivity|discriminate]|]. split; exact I.
Qed.
Lemma good_attr k x : ident_ok k -> good x -> good (attr k x).
Proof.
  intros Hk Hx. apply good_sp. intros h Hh. split; [split; [exact Hk|reflexivity]|].
  split; [split; [reflexivity|discriminate]|]. apply wf_app; [apply Hx; reflexivity|].
  split; [|exact I]. split; [reflexivity|discriminate].
Qed.
Lemma begins_attr k x : begins (attr k x).
Proof. apply begins_sp. Qed.
Lemma begins_when c x : begins x -> begins (when c x).
Proof. destruct c; [auto|intros _; apply begins_nil]. Qed.
Lemma good_when c x : (c = true -> good x) -> good (when c x).
Proof. destruct c; [auto|intros _; apply good_nil]. Qed.
Lemma free_when c x : (c = true -> free x) -> free (when c x).
Proof. destruct c; [auto|intros _; apply free_nil]. Qed.
Lemma free_opt {A} (o : option A) w : (forall a, o = Some a -> free (w a)) -> free (opt o w).
Proof. destruct o as [a|]; [intros H; now apply H|intros _; apply free_nil]. Qed.

(** numbers *)
Lemma uint_digits u : all_chars (fun c => is_digit c = true) (NilEmpty.string_of_uint u).
Proof. induction u; cbn; try split; auto. Qed.
Lemma lex_digits_all s : all_chars (fun c => is_digit c = true) s -> lex_digits s = (s, ""%string).
Proof. induction s as [|c s IH]; [reflexivity|]. intros [Hc Hs]. cbn. rewrite Hc, IH by assumption. reflexivity. Qed.
Lemma lex_decN n : lex_number (decN n) = Some (true, decN n, ""%string).
Proof.
  unfold decN. pose proof (uint_digits (N.to_uint n)) as H.
  assert (Hn : NilEmpty.string_of_uint (N.to_uint n) <> ""%string).
  { intros E. assert (N.to_uint n = Decimal.Nil) by (destruct (N.to_uint n); congruence || discriminate).
    destruct n as [|p]; [discriminate|]. apply (DecimalPos.Unsigned.to_uint_nonnil p). exact H0. }
  destruct (NilEmpty.string_of_uint (N.to_uint n)) as [|c s] eqn:E; [congruence|].
  unfold lex_number. pose proof (proj1 H) as Hc. cbn in Hc. rewrite Hc.
  rewrite (lex_digits_all (String c s) H). cbn. now rewrite str_app_nil.
Qed.
Lemma good_pint z : good (pint z).
Proof.
  intros h Hh. unfold pint. destruct (z <? 0)%Z.
  - split; [split; [reflexivity|discriminate]|]. split; [|exact I]. split; [apply lex_decN|exact Hh].
  - split; [|exact I]. split; [apply lex_decN|exact Hh].
Qed.
Section Writer.
Context {T : Type} {N : Num T} {X : TextNum T}.
Lemma good_pflt f (x : T) : good (pflt f x).
Proof.
  intros h Hh. unfold pflt. pose proof (fmt_num_ok f x) as E. destruct (fmt_num f x) as [[neg isint] s]. destruct neg.
  - split; [split; [reflexivity|discriminate]|]. split; [|exact I]. split; [exact E|exact Hh].
  - split; [|exact I]. split; [exact E|exact Hh].
Qed.
Lemma good_pvec f (v : vec3 T) : good (pvec f v).
Proof. apply good_spaced. repeat constructor; apply good_pflt. Qed.
Lemma str_ok_name s : name_ok s -> all_chars (fun c => str_char c = true) s.
Proof.
  induction s as [|c s IH]; [auto|]. intros [[(H1 & H2 & H3) H4] Hs]. split; [|now apply IH].
  unfold str_char, newline. apply Ascii.eqb_neq in H1, H2, H3, H4. now rewrite H1, H2, H3, H4.
Qed.
Lemma str_ok_path s : path_ok s -> all_chars (fun c => str_char c = true) (slashes s).
Proof.
  induction s as [|c s IH]; [auto|]. intros [(H1 & H2 & H3) Hs]. split; [|now apply IH].
  destruct (Ascii.eqb_spec c "\") as [->|H4]; [reflexivity|].
  unfold str_char, newline. apply Ascii.eqb_neq in H1, H2, H3, H4. now rewrite H1, H2, H3, H4.
Qed.
Lemma good_str s : all_chars (fun c => str_char c = true) s -> good (pstr s).
Proof. intros H h _. split; [exact H|exact I]. Qed.
Local Opaque open_line close_line line attr.
Ltac idk := cbn; repeat split; reflexivity.
Lemma free_scene (s : scene T) : free (w_scene s).
Proof.
  unfold w_scene. repeat apply free_app;
    first [ apply free_open; intros h Hh; split; [split; [idk|now apply num_end_id]|exact I]
          | apply free_line; [apply tabs1 | idk | first [apply good_pvec | apply good_pflt | apply good_pint]]
          | apply free_opt; intros; apply free_line; [apply tabs1 | idk | apply good_pvec]
          | apply free_when; intros; apply free_line; [apply tabs1 | idk | apply good_pflt]
          | apply free_close; now right ].
Qed.
Ltac at_ := first [apply good_attr; [idk|] | apply good_when; intros; apply good_attr; [idk|]].
Ltac bg := first [apply begins_attr | apply begins_when, begins_attr].
Lemma good_cons_str s b : all_chars (fun c => str_char c = true) s -> good b -> good (K (TStr s) :: b).
Proof. intros Hs Hb h Hh. split; [exact Hs|now apply Hb]. Qed.
Lemma free_material (m : material T) : text_material name_ok path_ok key_ok m -> free (w_material m).
Proof.
  intros (Hn & Ht & Ha & Hb & _). unfold w_material. apply free_W; [apply tabs1|].
  match goal with |- free (K ?s :: ?l) => assert (E : exists b, l = b ++ [NL] /\ good b) end.
  { rewrite !app_assoc. eexists. split; [reflexivity|].
    repeat (apply good_app; [| |bg]); at_;
      first [apply good_pflt | apply good_pint | apply good_spaced; repeat constructor; apply good_pflt
            | apply good_str, str_ok_path; assumption]. }
  destruct E as (b & -> & Hg). change (K (TStr (mtName m)) :: b ++ [NL]) with ((K (TStr (mtName m)) :: b) ++ [NL]).
  apply good_end. apply good_cons_str; [now apply str_ok_name|exact Hg].
Qed.
Lemma good_plen {A} (l : list A) : good (plen l).
Proof. apply good_pint. Qed.
Lemma free_W_good tb b : tabs_ok tb -> good b -> free (W tb :: b ++ [NL]).
Proof. intros Ht Hb. apply free_W; [exact Ht|now apply good_end]. Qed.
Lemma begins_concat {A} (w : A -> list piece) xs : (forall x, begins (w x)) -> begins (concat (map w xs)).
Proof. intros H. induction xs as [|x xs IH]; [apply begins_nil|]. cbn [map concat]. now apply begins_app. Qed.
Lemma good_concat {A} (w : A -> list piece) xs : (forall x, good (w x)) -> (forall x, begins (w x)) -> good (concat (map w xs)).
Proof.
  intros H Hb. induction xs as [|x xs IH]; [apply good_nil|]. cbn [map concat].
  apply good_app; [apply H|exact IH|now apply begins_concat].
Qed.
Lemma good_map {A} (w : A -> list piece) xs : (forall x, good (w x)) -> Forall good (map w xs).
Proof. intros H. induction xs; constructor; auto. Qed.
Lemma free_face (f : face T) : free (w_face f).
Proof.
  unfold w_face. rewrite !app_assoc. apply free_W_good; [apply tabs2|].
  repeat (apply good_app; [| |bg]); [apply good_plen | | | | |]; at_.
  - apply good_spaced, good_map. intros; apply good_pint.
  - apply good_pint.
  - apply good_pint.
  - apply good_spaced, good_map. intros. apply good_spaced. repeat constructor; apply good_pflt.
  - apply good_app.
    + apply good_spaced, good_map. intros; apply good_pint.
    + apply good_concat; intros [v|]; [apply good_sp, good_pvec | apply good_nil | apply begins_sp | apply begins_nil].
    + apply begins_concat. intros [v|]; [apply begins_sp | apply begins_nil].
Qed.
(** shader parameters *)
Lemma no_dot s : all_chars (fun c => is_ident c = true) s -> split_dot s = None.
Proof.
  induction s as [|c s IH]; [reflexivity|]. intros [Hc Hs]. cbn [split_dot].
  destruct (Ascii.eqb_spec c ".") as [->|]; [discriminate|]. now rewrite IH.
Qed.
Lemma split_at_dot a b : all_chars (fun c => is_ident c = true) a -> split_dot (a ++ "." ++ b)%string = Some (a, b).
Proof.
  induction a as [|c a IH]; [reflexivity|]. intros [Hc Hs]. cbn [append split_dot].
  destruct (Ascii.eqb_spec c ".") as [->|]; [discriminate|]. cbn [append] in IH. now rewrite IH.
Qed.
Lemma ident_all s : ident_ok s -> all_chars (fun c => is_ident c = true) s.
Proof. destruct s as [|c s]; [intros []|]. intros [Hc Hs]. split; [unfold is_ident; now rewrite Hc|exact Hs]. Qed.
Lemma good_key k : key_ok k -> good (pkey k).
Proof.
  intros [H|(a & b & -> & Ha & Hb)] h Hh; unfold pkey.
  - rewrite no_dot by (now apply ident_all). split; [split; [exact H|now apply num_end_id]|exact I].
  - rewrite split_at_dot by (now apply ident_all). split; [split; [exact Ha|reflexivity]|].
    split; [split; [reflexivity|]|]; [|split; [split; [exact Hb|now apply num_end_id]|exact I]].
    intros _. right. destruct b as [|c b]; [destruct Hb|]. exists c. split; [reflexivity|apply Hb].
Qed.
Lemma free_param (q : string * param T) : text_param key_ok q -> free (w_param q).
Proof.
  intros [Hk Hv]. unfold w_param. rewrite app_assoc. apply free_W_good; [apply tabs3|].
  destruct (snd q); try contradiction; (apply good_app; [now apply good_key | | apply begins_sp]);
    (apply good_sp; intros h Hh; split; [split; [idk|reflexivity]|]; apply good_sp; [first [apply good_pint | apply good_pflt]|exact Hh]).
Qed.
Lemma good_word k b : ident_ok k -> good b -> good (K (TId k) :: sp :: b).
Proof. intros Hk Hb h Hh. split; [split; [exact Hk|reflexivity]|]. now apply good_sp. Qed.
Lemma free_ex2 i (e : matex2 T) : text_ex2 name_ok key_ok e -> free (w_ex2 i e).
Proof.
  intros (Ht & Hn & Hp & _). unfold w_ex2. apply free_W; [apply tabs1|]. apply free_app.
  { apply free_open. apply good_word; [idk|apply good_pint]. }
  apply free_app; [apply free_line; [apply tabs2 | idk | now apply good_str, str_ok_name]|].
  apply free_app; [apply free_line; [apply tabs2 | idk | now apply good_str, str_ok_name]|].
  apply free_W; [apply tabs2|]. apply free_app; [apply free_open; apply good_word; [idk|apply good_plen]|].
  apply free_app; [|apply free_app; apply free_close; left; [apply tabs2|apply tabs1]].
  apply free_concat. intros q Hq. apply free_param. now apply (proj1 (Forall_forall _ _) Hp).
Qed.
Lemma free_materials (ms : list (material T)) : Forall (text_material name_ok path_ok key_ok) ms -> free (w_materials ms).
Proof.
  intros H. unfold w_materials. apply free_app; [apply free_open; apply good_word; [idk|apply good_plen]|].
  apply free_app; [apply free_concat; intros m Hm; apply free_material; now apply (proj1 (Forall_forall _ _) H)|].
  apply free_app; [apply free_close; now right|]. apply free_when. intros _.
  apply free_app; [apply free_open; apply good_word; [idk|apply good_plen]|].
  apply free_app; [|apply free_close; now right].
  rewrite exs_pieces. apply free_concat. intros p Hp. destruct (exs_in _ _ _ Hp) as (m & Hm & Em).
  apply (proj1 (Forall_forall _ _) H) in Hm. apply free_ex2. apply Hm. exact Em.
Qed.
Lemma free_object (o : object T) : text_object name_ok o -> free (w_object o).
Proof.
  intros (Hn & _). unfold w_object.
  apply free_app. { apply free_open. apply good_word; [idk|]. apply good_str. now apply str_ok_name. }
  do 12 (apply free_app; [
    first [ apply free_line; [apply tabs1 | idk | first [apply good_pvec | apply good_pflt | apply good_pint]]
          | apply free_opt; intros; apply free_line; [apply tabs1 | idk | apply good_pvec]
          | apply free_when; intros; apply free_line; [apply tabs1 | idk | apply good_pint]
          | apply free_when; intros; apply free_app; apply free_line; first [apply tabs1 | idk | apply good_pint | apply good_pflt] ] |]).
  apply free_app. { apply free_opt; intros; apply free_line; [apply tabs1 | idk | apply good_pvec]. }
  apply free_W; [apply tabs1|]. apply free_app; [apply free_open; apply good_word; [idk|apply good_plen]|].
  apply free_app; [apply free_concat; intros v _; apply free_W_good; [apply tabs2|apply good_pvec]|].
  apply free_app; [apply free_close; left; apply tabs1|].
  apply free_app.
  { apply free_when. intros _. unfold w_vertexattr. apply free_W; [apply tabs1|].
    apply free_app; [apply free_open; intros h Hh; split; [split; [idk|now apply num_end_id]|exact I]|].
    apply free_W; [apply tabs2|].
    apply free_app; [apply free_open; intros h Hh; split; [split; [idk|now apply num_end_id]|exact I]|].
    apply free_app; [apply free_concat; intros v _; apply free_W_good; [apply tabs3|apply good_pint]|].
    apply free_app; apply free_close; left; [apply tabs2|apply tabs1]. }
  apply free_W; [apply tabs1|]. apply free_app; [apply free_open; apply good_word; [idk|apply good_plen]|].
  apply free_app; [apply free_concat; intros f _; apply free_face|].
  apply free_app; apply free_close; [left; apply tabs1|now right].
Qed.
Lemma plain_name s : name_ok s -> plain s.
Proof. induction s as [|c s IH]; [auto|]. intros [[(H & _) _] Hs]. split; [exact H|now apply IH]. Qed.
Lemma plain_path s : path_ok s -> plain s.
Proof. induction s as [|c s IH]; [auto|]. intros [(H & _) Hs]. split; [exact H|now apply IH]. Qed.
Lemma plain_ident s : all_chars (fun c => is_ident c = true) s -> plain s.
Proof. induction s as [|c s IH]; [auto|]. intros [H Hs]. split; [intros ->; discriminate|now apply IH]. Qed.
Lemma plain_app a b : plain a -> plain b -> plain (a ++ b)%string.
Proof. induction a as [|c a IH]; [auto|]. intros [H Ha] Hb. split; [exact H|now apply IH]. Qed.
Lemma plain_key s : key_ok s -> plain s.
Proof.
  intros [H|(a & b & -> & Ha & Hb)]; [now apply plain_ident, ident_all|].
  apply plain_app; [now apply plain_ident, ident_all|]. split; [discriminate|]. now apply plain_ident, ident_all.
Qed.
Lemma domain_plain (d : text_doc T) : text_domain d -> text_dom plain plain plain d.
Proof.
  intros (Hi & Hm & Ho). split; [|split].
  - intros f Hf. destruct (Hi f Hf). split; [now apply plain_name|assumption].
  - revert Hm. apply Forall_impl. intros m (H1 & H2 & H3 & H4 & H5 & H6).
    repeat (split; [first [now apply plain_name | now apply plain_path | assumption]|]).
    intros e He. destruct (H6 e He) as (G1 & G2 & G3 & G4). split; [now apply plain_name|]. split; [now apply plain_name|].
    split; [|exact G4]. revert G3. apply Forall_impl. intros q [K1 K2]. split; [now apply plain_key|exact K2].
  - revert Ho. apply Forall_impl. intros o (H1 & H2). split; [now apply plain_name|exact H2].
Qed.
Theorem parse_write_text (d : text_doc T) : text_domain d -> parse_text (write_text d) = Some (kept_doc d).
Proof.
  intros H. unfold parse_text, write_text. rewrite lex_render; [apply parse_write; now apply domain_plain|].
  destruct H as (Hi & Hm & Ho). unfold write_mqo.
  assert (G : free (w_header ++ opt (tdInclude d) w_include ++ opt (tdScene d) w_scene ++
     w_materials (dMaterials (tdDoc d)) ++ concat (map w_object (dObjects (tdDoc d))) ++ [K (TId "Eof"); NL])); [|apply G].
  apply free_app. { intros h. cbn. repeat split; try reflexivity; try discriminate. }
  apply free_app.
  { apply free_opt. intros f Hf. destruct (Hi f Hf) as [Hn _]. intros h. split; [split; [idk|reflexivity]|].
    split; [cbn; auto|]. split; [now apply str_ok_name|]. split; exact I. }
  apply free_app; [apply free_opt; intros; apply free_scene|].
  apply free_app; [now apply free_materials|].
  apply free_app; [apply free_concat; intros o Hoo; apply free_object; now apply (proj1 (Forall_forall _ _) Ho)|].
  intros h. split; [split; [idk|reflexivity]|]. split; exact I.
Qed.
End Writer.
