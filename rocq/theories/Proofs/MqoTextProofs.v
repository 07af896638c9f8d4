(** Reading back what [write_mqo] writes. *)
From Coq Require Import String Ascii List ZArith NArith Bool DecimalString DecimalN Lia.
From Verif.Model Require Import Num Vec Matrix Mqo MqoDoc MqoText.
From Verif.Spec Require Import TextSpec.
Import ListNotations.
Local Open Scope string_scope.
Local Open Scope list_scope.

(** No double quote in a string. *)
Fixpoint plain (s : string) : Prop :=
  match s with EmptyString => True | String c r => c <> """"%char /\ plain r end.

(** ** Tokens *)
Lemma toks_app a b : toks_of (a ++ b) = (toks_of a ++ toks_of b).
Proof. apply flat_map_app. Qed.
Lemma toks_W s b : toks_of (W s :: b) = toks_of b.
Proof. reflexivity. Qed.
Lemma toks_K t b : toks_of (K t :: b) = t :: toks_of b.
Proof. reflexivity. Qed.
Lemma toks_nil : toks_of [] = [].
Proof. reflexivity. Qed.
Lemma toks_spaced xs : toks_of (spaced xs) = concat (map toks_of xs).
Proof.
  induction xs as [|x [|y ys] IH]; [reflexivity | cbn; now rewrite app_nil_r |].
  change (spaced (x :: y :: ys)) with (x ++ sp :: spaced (y :: ys)).
  rewrite toks_app; unfold sp; rewrite toks_W, IH; reflexivity.
Qed.
Lemma toks_concat xs : toks_of (concat xs) = concat (map toks_of xs).
Proof. induction xs as [|x xs IH]; [reflexivity|]. cbn [concat map]; now rewrite toks_app, IH. Qed.

Lemma toks_sp b : toks_of (sp :: b) = toks_of b.
Proof. reflexivity. Qed.
Lemma toks_NL b : toks_of (NL :: b) = TNL :: toks_of b.
Proof. reflexivity. Qed.
Lemma toks_ch c b : toks_of (ch c :: b) = TCh c :: toks_of b.
Proof. reflexivity. Qed.
Lemma toks_open x : toks_of (open_line x) = toks_of x ++ [TCh "{"; TNL].
Proof. unfold open_line. now rewrite toks_app. Qed.
Lemma toks_close tb : toks_of (close_line tb) = [TCh "}"; TNL].
Proof. unfold close_line. destruct (String.eqb tb ""); reflexivity. Qed.
Lemma app_cons {A} (x : A) a b : (x :: a) ++ b = x :: (a ++ b).
Proof. reflexivity. Qed.
Lemma app_nil_l' {A} (b : list A) : [] ++ b = b.
Proof. reflexivity. Qed.
Global Hint Rewrite toks_app toks_W toks_sp toks_NL toks_ch toks_K toks_nil toks_open toks_close @app_cons @app_nil_l' : tk.
Global Hint Rewrite <- app_assoc : tk.
Ltac tk := autorewrite with tk.

(** ** Strings and numbers *)
Lemma trim_right_app_quote s : plain s -> trim_right (s ++ quote)%string = s.
Proof.
  induction s as [|c s IH]; [reflexivity|]. intros [Hc Hs]. cbn [append trim_right]. rewrite (IH Hs).
  destruct s; [|reflexivity]. destruct (Ascii.eqb_spec c """"); [contradiction|reflexivity].
Qed.
Lemma trim_right_plain s : plain s -> trim_right s = s.
Proof.
  induction s as [|c s IH]; [reflexivity|]. intros [Hc Hs]. cbn [trim_right]. rewrite (IH Hs).
  destruct s; [|reflexivity]. destruct (Ascii.eqb_spec c """"); [contradiction|reflexivity].
Qed.
Lemma trim_str s : plain s -> trimq (text (TStr s)) = s.
Proof.
  intros H. unfold trimq, text, quote. cbn [append trim_left]. rewrite Ascii.eqb_refl.
  destruct s as [|c s]; [reflexivity|]. destruct H as [Hc Hs]. cbn [append trim_left].
  destruct (Ascii.eqb_spec c """"); [contradiction|].
  apply (trim_right_app_quote (String c s)). split; assumption.
Qed.
Lemma trim_plain s : plain s -> trimq s = s.
Proof.
  intros H. unfold trimq. destruct s as [|c s]; [reflexivity|]. destruct H as [Hc Hs]. cbn [trim_left].
  destruct (Ascii.eqb_spec c """"); [contradiction|].
  apply (trim_right_plain (String c s)). split; assumption.
Qed.
Lemma slashed_eq s : slashed s = slashes s.
Proof.
  unfold slashed. induction s as [|c s IH]; [reflexivity|]. cbn. rewrite IH.
  destruct (ascii_dec c "\"), (Ascii.eqb_spec c "\"); congruence.
Qed.
Lemma find_app {A} (f : A -> bool) l l' : find f (l ++ l') = match find f l with Some x => Some x | None => find f l' end.
Proof. induction l as [|a l IH]; [reflexivity|]. cbn. destruct (f a); [reflexivity|exact IH]. Qed.
Lemma stored_id_eq m i : stored_id m i = w_uid m i.
Proof.
  unfold stored_id, w_uid. assert (E : uid_of m i = option_map fst (find (fun p => snd p =? i)%Z (rev m))).
  { induction m as [|[u v] m IH]; [reflexivity|]. cbn [rev uid_of]. rewrite find_app, IH.
    destruct (find _ (rev m)) as [[? ?]|]; [reflexivity|]. cbn. destruct (v =? i)%Z; reflexivity. }
  rewrite E. destruct (find _ _) as [[? ?]|]; reflexivity.
Qed.
Lemma kept_ids_eq m n : kept_ids m n = match m with [] => [] | _ => rev (map (fun i => (w_uid m i, i)) (zseq n)) end.
Proof.
  unfold kept_ids, zseq. destruct m as [|p m]; [reflexivity|]. rewrite map_map. f_equal. apply map_ext. intros a. now rewrite stored_id_eq.
Qed.
Lemma plain_slashes s : plain s -> plain (slashes s).
Proof.
  induction s as [|c s IH]; [auto|]. intros [Hc Hs]. split; [|now apply IH].
  destruct (Ascii.eqb_spec c "\"); [discriminate|assumption].
Qed.
Lemma atoi_decN n : atoi (decN n) = Z.of_N n.
Proof. unfold atoi, decN. rewrite NilEmpty.usu, Unsigned.of_to. reflexivity. Qed.
Lemma split_dot_spec s : match split_dot s with
  | Some (a, b) => (a ++ "." ++ b)%string = s /\ (plain s -> plain a /\ plain b)
  | None => True end.
Proof.
  induction s as [|c s IH]; [exact I|]. cbn [split_dot]. destruct (Ascii.eqb_spec c ".") as [->|Hc].
  - split; [reflexivity|]. intros [_ H]; split; [exact I|exact H].
  - destruct (split_dot s) as [[a b]|]; [|exact I]. destruct IH as [E H]. split.
    + cbn [append] in *. now rewrite E.
    + intros [H1 H2]. destruct (H H2). repeat split; assumption.
Qed.

Lemma pint_nonneg z : (0 <= z)%Z -> toks_of (pint z) = [TNum true (decN (Z.to_N z))].
Proof. intros H. unfold pint. destruct (Z.ltb_spec z 0); [lia|reflexivity]. Qed.

Section Proofs.
Context {T : Type} {N : Num T} {X : TextNum T}.
Implicit Types (l n F : nat) (r ts : list tok).

Lemma skip_ch c l ts : skip (St l (TCh c :: ts)) = St l ts.
Proof. reflexivity. Qed.
Lemma read_int_ok z l r : (0 <= z)%Z -> read_int (St l (toks_of (pint z) ++ r)) = (z, St l r).
Proof. intros H. rewrite (pint_nonneg z H). cbn. rewrite atoi_decN. f_equal. lia. Qed.
Lemma num_not_minus b s : lex_number s = Some (b, s, "") -> String.eqb s "-" = false.
Proof. intros H. destruct (String.eqb_spec s "-") as [->|]; [discriminate H|reflexivity]. Qed.
Lemma read_float_ok f (x : T) l r : read_float (St l (toks_of (pflt f x) ++ r)) = (reread f x, St l r).
Proof.
  pose proof (fmt_num_ok f x) as H. unfold pflt, reread. destruct (fmt_num f x) as [[neg isint] s].
  destruct neg; cbn; [reflexivity|].
  unfold read_float, scan; cbn [ln rest scan_from text app]. now rewrite (num_not_minus _ _ H).
Qed.
Lemma read_vec_ok f (v : vec3 T) l r : read_vec (St l (toks_of (pvec f v) ++ r)) = (rr3 f v, St l r).
Proof.
  unfold pvec, read_vec. rewrite toks_spaced. cbn [map concat]. rewrite app_nil_r, <- !app_assoc.
  now rewrite !read_float_ok.
Qed.
Lemma read_str_ok s l r : plain s -> read_str (St l (TStr s :: r)) = (s, St l r).
Proof. intros H. unfold read_str. cbn [scan scan_from ln rest]. unfold scan; cbn [ln rest scan_from]. now rewrite trim_str. Qed.
Lemma plen_ok {A} (xs : list A) l r : read_int (St l (toks_of (plen xs) ++ r)) = (Z.of_nat (length xs), St l r).
Proof. apply read_int_ok; lia. Qed.

(** ** Loops *)
Lemma obj_loop_mono {A} F n (h : handlers A) a s x : obj_loop F n h a s = Some x -> obj_loop F (S n) h a s = Some x.
Proof.
  revert a s. induction n as [|n IH]; [discriminate|]. intros a s H.
  remember (S n) as m eqn:Em. cbn [obj_loop]. rewrite Em in H. cbn [obj_loop] in H.
  destruct (scan s) as [t s1]. destruct (is_eof t); [exact H|].
  destruct (String.eqb (text t) "}"); [exact H|].
  destruct (String.eqb (text t) "{").
  - destruct (skip_block F s1); [|discriminate]. now apply IH.
  - destruct (h (text t)) as [g|].
    + destruct (g a s1) as [[a' s2]|]; [|discriminate]. now apply IH.
    + now apply IH.
Qed.
Lemma obj_loop_le {A} F n m (h : handlers A) a s x : n <= m -> obj_loop F n h a s = Some x -> obj_loop F m h a s = Some x.
Proof. induction 1; [auto|]. intros H'. apply obj_loop_mono; auto. Qed.
Lemma attrs_loop_mono {A} F n (h : handlers A) l a s x : attrs_loop F n h l a s = Some x -> attrs_loop F (S n) h l a s = Some x.
Proof.
  revert a s. induction n as [|n IH]; [discriminate|]. intros a s H.
  remember (S n) as m eqn:Em. cbn [attrs_loop]. rewrite Em in H. cbn [attrs_loop] in H.
  destruct (scan s) as [t s1]. destruct (negb (Nat.eqb l (ln s1)) || is_eof t); [exact H|].
  destruct (match h (text t) with
            | Some g => match g a (skip s1) with Some (a', s2) => Some (a', skip s2) | None => None end
            | None => match skip_attr F l (skip s1) with Some s2 => Some (a, s2) | None => None end end) as [[a' s2]|];
    [|discriminate].
  destruct (at_eol s2); [exact H|]. now apply IH.
Qed.

(** The loops return [a] and leave the tokens [r]. *)
Definition leaves {A} (x : option (A * st)) (a : A) r : Prop := exists l, x = Some (a, St l r).

(** One round of [procObj]. *)
Lemma obj_nl {A} F n (h : handlers A) a l ts : obj_loop F n h a (St l (TNL :: ts)) = obj_loop F n h a (St (S l) ts).
Proof. destruct n; reflexivity. Qed.
Definition word (k : string) : bool := negb (String.eqb k "}" || String.eqb k "{").
Lemma obj_word {A} F n (h : handlers A) g k a l ts a' l' r b q :
  word k = true -> h k = Some g -> g a (St l ts) = Some (a', St l' r) ->
  leaves (obj_loop F n h a' (St l' r)) b q -> leaves (obj_loop F (S n) h a (St l (TId k :: ts))) b q.
Proof.
  intros Hk Hh Hg [l2 H]. exists l2. cbn [obj_loop]. unfold scan; cbn [ln rest scan_from is_eof text].
  unfold word in Hk. apply negb_true_iff, orb_false_iff in Hk. destruct Hk as [-> ->]. rewrite Hh, Hg. exact H.
Qed.
(** A line [name items] of a block. *)
Lemma obj_line {A} F n (h : handlers A) g tb k x a l a' r b q :
  word k = true -> h k = Some g -> (forall l, g a (St l (toks_of x ++ TNL :: r)) = Some (a', St l (TNL :: r))) ->
  (forall l, leaves (obj_loop F n h a' (St l r)) b q) ->
  leaves (obj_loop F (S n) h a (St l (toks_of (line tb k x) ++ r))) b q.
Proof.
  intros Hk Hh Hg H. unfold line. rewrite toks_W, toks_K. unfold sp. rewrite toks_W, toks_app. cbn [app].
  rewrite <- app_assoc. eapply obj_word; [exact Hk | exact Hh | apply Hg |]. rewrite obj_nl. apply H.
Qed.
Lemma leaves_mono {A} F n (h : handlers A) a s b q : leaves (obj_loop F n h a s) b q -> leaves (obj_loop F (S n) h a s) b q.
Proof. intros [l H]. exists l. now apply obj_loop_mono. Qed.
Lemma obj_when {A} F n (h : handlers A) (c : bool) x a l a' r b q :
  (c = true -> (forall l, leaves (obj_loop F n h a' (St l r)) b q) -> leaves (obj_loop F (S n) h a (St l (toks_of x ++ r))) b q) ->
  (forall l, leaves (obj_loop F n h (if c then a' else a) (St l r)) b q) ->
  leaves (obj_loop F (S n) h a (St l (toks_of (when c x) ++ r))) b q.
Proof. intros H1 H2. destruct c; [now apply H1 | apply leaves_mono, H2]. Qed.
Lemma obj_opt {A B} F n (h : handlers A) (o : option B) (w : B -> list piece) (put : B -> A) a l r b q :
  (forall v, o = Some v -> (forall l, leaves (obj_loop F n h (put v) (St l r)) b q) ->
             leaves (obj_loop F (S n) h a (St l (toks_of (w v) ++ r))) b q) ->
  (forall l, leaves (obj_loop F n h (match o with Some v => put v | None => a end) (St l r)) b q) ->
  leaves (obj_loop F (S n) h a (St l (toks_of (opt o w) ++ r))) b q.
Proof. intros H1 H2. destruct o; [now apply H1 | apply leaves_mono, H2]. Qed.
Lemma leaves_le {A} F n m (h : handlers A) a s b q : n <= m -> leaves (obj_loop F n h a s) b q -> leaves (obj_loop F m h a s) b q.
Proof. intros Hle [l H]. exists l. eapply obj_loop_le; eassumption. Qed.
Lemma obj_when2 {A} F n (h : handlers A) (c : bool) x a l a' r b q :
  (c = true -> (forall l, leaves (obj_loop F n h a' (St l r)) b q) -> leaves (obj_loop F (S (S n)) h a (St l (toks_of x ++ r))) b q) ->
  (forall l, leaves (obj_loop F n h (if c then a' else a) (St l r)) b q) ->
  leaves (obj_loop F (S (S n)) h a (St l (toks_of (when c x) ++ r))) b q.
Proof. intros H1 H2. destruct c; [now apply H1 | apply leaves_mono, leaves_mono, H2]. Qed.
Lemma obj_unknown {A} F n (h : handlers A) t a l ts : is_eof t = false -> t <> TNL ->
  word (text t) = true -> h (text t) = None -> obj_loop F (S n) h a (St l (t :: ts)) = obj_loop F n h a (St l ts).
Proof.
  intros He Hl Hk Hh. cbn [obj_loop]. unfold scan; cbn [ln rest].
  replace (scan_from l (t :: ts)) with (t, St l ts) by (destruct t; congruence || reflexivity).
  rewrite He. unfold word in Hk. apply negb_true_iff, orb_false_iff in Hk. destruct Hk as [-> ->]. now rewrite Hh.
Qed.
Lemma obj_close {A} F n (h : handlers A) a l r : leaves (obj_loop F (S n) h a (St l (TCh "}" :: r))) a r.
Proof. exists l. reflexivity. Qed.

(** [procArray] *)
Lemma array_ok {A B} (elem : A -> st -> option (A * st)) (w : B -> list piece) (put : A -> B -> A) (xs : list B) r :
  (forall a x l r, In x xs -> leaves (elem a (St l (TNL :: toks_of (w x) ++ r))) (put a x) (TNL :: r)) ->
  forall a l, leaves (array_loop (length xs) elem a (St l (TNL :: toks_of (concat (map w xs)) ++ r)))
                (fold_left put xs a) (TNL :: r).
Proof.
  induction xs as [|x xs IH]; intros H a l; [exists l; reflexivity|].
  cbn [length array_loop map concat fold_left]. rewrite toks_app, <- !app_assoc.
  destruct (H a x l (toks_of (concat (map w xs)) ++ r) (or_introl eq_refl)) as [l' ->].
  apply IH. intros. apply H. now right.
Qed.
Lemma proc_array_ok {A B} (init : A -> A) (elem : A -> st -> option (A * st)) (w : B -> list piece)
  (put : A -> B -> A) (xs : list B) a l r :
  (forall a x l r, In x xs -> leaves (elem a (St l (TNL :: toks_of (w x) ++ r))) (put a x) (TNL :: r)) ->
  leaves (proc_array init elem a (St l (toks_of (plen xs) ++ TCh "{" :: TNL :: toks_of (concat (map w xs)) ++ TCh "}" :: r)))
    (fold_left put xs (init a)) r.
Proof.
  intros He. unfold proc_array. rewrite plen_ok, Nat2Z.id. rewrite skip_ch.
  destruct (array_ok elem w put xs (TCh "}" :: r) He (init a) l) as [l' ->]. exists (S l'). reflexivity.
Qed.

(** [procAttrs] *)
Definition attrs_after {A} F n (h : handlers A) l a s : option (A * st) :=
  if at_eol s then Some (a, s) else attrs_loop F n h l a s.
Lemma after_mono {A} F n (h : handlers A) l a s x : attrs_after F n h l a s = Some x -> attrs_after F (S n) h l a s = Some x.
Proof. unfold attrs_after. destruct (at_eol s); [auto|]. apply attrs_loop_mono. Qed.
Lemma after_attr {A} F n (h : handlers A) g k x l a a' r y :
  h k = Some g -> g a (St l (toks_of x ++ TCh ")" :: r)) = Some (a', St l (TCh ")" :: r)) ->
  attrs_after F n h l a' (St l r) = Some y -> attrs_after F (S n) h l a (St l (toks_of (attr k x) ++ r)) = Some y.
Proof.
  intros Hh Hg H. unfold attr, sp, ch. rewrite toks_W, !toks_K, toks_app. cbn [app]. rewrite <- app_assoc.
  unfold attrs_after at 1. cbn [at_eol rest attrs_loop]. unfold scan; cbn [ln rest scan_from]. rewrite Nat.eqb_refl.
  cbn [negb orb is_eof text]. rewrite Hh. rewrite skip_ch. cbn [toks_of flat_map app].
  rewrite Hg, skip_ch. exact H.
Qed.
Lemma after_when {A} F n (h : handlers A) g (c : bool) k x l a a' r y :
  h k = Some g -> (c = true -> g a (St l (toks_of x ++ TCh ")" :: r)) = Some (a', St l (TCh ")" :: r))) ->
  attrs_after F n h l (if c then a' else a) (St l r) = Some y ->
  attrs_after F (S n) h l a (St l (toks_of (when c (attr k x)) ++ r)) = Some y.
Proof. intros Hh Hg H. destruct c; [eapply after_attr; eauto | now apply after_mono]. Qed.

(** [for] loops that read a fixed number of values *)
Lemma read_n_ok {B C} (rd : st -> C * st) (w : B -> list piece) (v : B -> C) (xs : list B) l r :
  (forall x l r, In x xs -> rd (St l (toks_of (w x) ++ r)) = (v x, St l r)) ->
  read_n (length xs) rd (St l (toks_of (spaced (map w xs)) ++ r)) = (map v xs, St l r).
Proof.
  rewrite toks_spaced, map_map. revert l r. induction xs as [|x xs IH]; intros l r H; [reflexivity|].
  cbn [length read_n map concat]. rewrite <- app_assoc. rewrite H by (now left).
  rewrite IH; [reflexivity|]. intros. apply H. now right.
Qed.

(** ** Materials *)
Lemma on_int {A} (set : A -> Z -> A) z a l r : (0 <= z)%Z ->
  on read_int set a (St l (toks_of (pint z) ++ r)) = Some (set a z, St l r).
Proof. intros H. unfold on. now rewrite read_int_ok. Qed.
Lemma on_float {A} (set : A -> T -> A) f x a l r :
  on read_float set a (St l (toks_of (pflt f x) ++ r)) = Some (set a (reread f x), St l r).
Proof. unfold on. now rewrite read_float_ok. Qed.
Lemma on_vec {A} (set : A -> vec3 T -> A) f x a l r :
  on read_vec set a (St l (toks_of (pvec f x) ++ r)) = Some (set a (rr3 f x), St l r).
Proof. unfold on. now rewrite read_vec_ok. Qed.
Lemma on_str {A} (set : A -> string -> A) s a l r : plain s ->
  on read_str set a (St l (toks_of (pstr s) ++ r)) = Some (set a s, St l r).
Proof. intros H. unfold on, pstr. rewrite toks_K. cbn [app toks_of flat_map]. now rewrite read_str_ok. Qed.
Lemma on_vec4 {A} (set : A -> vec4 T -> A) v a l r :
  on read_vec4 set a (St l (toks_of (spaced [pflt F3 (qx v); pflt F3 (qy v); pflt F3 (qz v); pflt F3 (qw v)]) ++ r)) =
  Some (set a (rr4 v), St l r).
Proof.
  unfold on, read_vec4. rewrite toks_spaced. cbn [map concat]. rewrite app_nil_r, <- !app_assoc.
  now rewrite !read_float_ok.
Qed.
Lemma proc_attrs_after {A} F n (h : handlers A) a l ts x :
  n <= F -> at_eol (St l ts) = false -> attrs_after F n h l a (St l ts) = Some x -> proc_attrs F h a (St l ts) = Some x.
Proof.
  intros HF Hs. unfold attrs_after, proc_attrs. rewrite Hs. cbn [ln].
  assert (K : forall m, n <= m -> attrs_loop F n h l a (St l ts) = Some x -> attrs_loop F m h l a (St l ts) = Some x).
  { induction 1; [auto|]. intros H'. apply attrs_loop_mono; auto. }
  now apply K.
Qed.
Definition no_ex2 (m : material T) : material T := set_mt_ex2 m None.
Lemma slashes_nil s : String.eqb s "" = true -> slashes s = "".
Proof. destruct s; [reflexivity|discriminate]. Qed.
Lemma after_end {A} F n (h : handlers A) l a r : attrs_after F n h l a (St l (TNL :: r)) = Some (a, St l (TNL :: r)).
Proof. reflexivity. Qed.

Lemma read_str_nl l ts : read_str (St l (TNL :: ts)) = read_str (St (S l) ts).
Proof. reflexivity. Qed.
Lemma read_material_ok F (m : material T) l r : 20 <= F -> text_material plain plain plain m ->
  leaves (read_material F (St l (TNL :: toks_of (w_material m) ++ r))) (no_ex2 (kept_material m)) (TNL :: r).
Proof.
  intros HF (Hn & Ht & Ha & Hb & Hs & _). exists (S l).
  unfold w_material. rewrite toks_W, toks_K. unfold read_material. cbn [app].
  rewrite read_str_nl, read_str_ok by assumption. rewrite !toks_app, <- !app_assoc.
  eapply (proc_attrs_after F 20); [exact HF | |].
  { unfold when. repeat match goal with |- context [if ?b then _ else _] => destruct b; try reflexivity end. }
  eapply after_when; [reflexivity | intros _; apply on_int; assumption |].
  eapply after_when; [reflexivity | intros _; apply on_int; destruct (mtDouble m); lia |].
  eapply after_when; [reflexivity | intros H; apply on_int; apply Z.ltb_lt in H; lia |].
  eapply after_attr; [reflexivity | apply on_vec4 |].
  do 5 (eapply after_attr; [reflexivity | apply on_float |]).
  eapply after_when; [reflexivity | intros _; apply on_str; now apply plain_slashes |].
  eapply after_when; [reflexivity | intros _; apply on_str; now apply plain_slashes |].
  eapply after_when; [reflexivity | intros _; apply on_str; now apply plain_slashes |].
  cbn [toks_of flat_map app NL]. rewrite after_end. f_equal. f_equal.
  unfold no_ex2, kept_material. rewrite !slashed_eq.
  destruct m as [name uid col dif amb emi spc pow tex bump alp ec dbl sh ex].
  cbn [mtName mtUID mtColor mtDiffuse mtAmbient mtEmission mtSpecular mtPower mtTexture mtBump mtAlpha mtEmissionColor mtDouble mtShader mtEx2] in *.
  destruct (Z.eqb_spec sh 0) as [->|]; destruct dbl;
  destruct (Z.ltb_spec 0 uid) as [Hu|Hu]; (first [rewrite Z.max_r by lia | rewrite Z.max_l by lia]);
  destruct tex, alp, bump; reflexivity.
Qed.

(** ** Faces *)
Lemma read_normals_ok (ns : list (option (vec3 T))) l r :
  read_normals (map (fun o => match o with Some _ => 2 | None => 0 end)%Z ns)
    (St l (toks_of (concat (map (fun o => opt o (fun v => sp :: pvec FV v)) ns)) ++ r)) =
  (map (option_map (rr3 FV)) ns, St l r).
Proof.
  revert l r. induction ns as [|[v|] ns IH]; intros l r; [reflexivity| |].
  - cbn [map concat opt read_normals]. change (negb (Z.land 2 2 =? 0)%Z) with true. cbn iota.
    rewrite toks_app. unfold sp at 1. rewrite toks_W, <- app_assoc, read_vec_ok, IH. reflexivity.
  - cbn [map concat opt read_normals]. change (negb (Z.land 0 2 =? 0)%Z) with false. cbn iota.
    cbn [app]. rewrite IH. reflexivity.
Qed.
Lemma read_int_nl l ts : read_int (St l (TNL :: ts)) = read_int (St (S l) ts).
Proof. reflexivity. Qed.
Lemma read_face_ok F (f : face T) l r : 20 <= F -> text_face f ->
  leaves (read_face F (St l (TNL :: toks_of (w_face f) ++ r))) (kept_face f) (TNL :: r).
Proof.
  intros HF (Hv & Hm). exists (S l).
  unfold w_face. rewrite toks_W. unfold read_face. rewrite !toks_app, <- !app_assoc.
  rewrite read_int_nl, plen_ok, Nat2Z.id.
  eapply (proc_attrs_after F 20); [exact HF | reflexivity |].
  eapply after_attr; [reflexivity | |].
  { cbn [snd]; unfold on; cbv beta. rewrite (read_n_ok read_int pint (fun z => z)).
    - reflexivity.
    - intros. apply read_int_ok. now apply (proj1 (Forall_forall _ _) Hv). }
  eapply after_attr; [reflexivity | apply on_int; exact Hm |].
  eapply after_when; [reflexivity | intros H; apply on_int; apply Z.ltb_lt in H; lia |].
  eapply after_when; [reflexivity | |].
  { intros H. apply Nat.eqb_eq in H. cbn [snd]; unfold on; cbv beta. rewrite <- H at 1.
    rewrite (read_n_ok read_uv _ rr2).
    - reflexivity.
    - intros u l' r' _. unfold read_uv. rewrite toks_spaced. cbn [map concat]. rewrite app_nil_r, <- app_assoc.
      now rewrite !read_float_ok. }
  eapply after_when; [reflexivity | |].
  { intros H. apply Nat.eqb_eq in H. cbn [snd]; unfold on; cbv beta. rewrite <- H at 1. rewrite toks_app, <- app_assoc.
    rewrite (read_n_ok read_int normal_flag (fun o => match o with Some _ => 2 | None => 0 end)%Z).
    - rewrite read_normals_ok. reflexivity.
    - intros n l' r' _. apply read_int_ok. destruct n; lia. }
  cbn [toks_of flat_map app NL]. rewrite after_end. f_equal. f_equal.
  unfold kept_face. destruct f as [uid vs mt uvs ns]. cbn [fUID fVerts fMaterial fUVs fNormals]. rewrite map_id.
  destruct (Z.ltb_spec 0 uid) as [Hu|Hu]; (first [rewrite Z.max_r by lia | rewrite Z.max_l by lia]);
  destruct (Nat.eqb (length uvs) (length vs)), (Nat.eqb (length ns) (length vs)); reflexivity.
Qed.

(** ** Extended materials *)
Definition ex_put (e : matex2 T) (q : string * param T) : matex2 T :=
  set_ex_params e (map_set (exParams e) (fst (kept_param q)) (snd (kept_param q))).
Lemma read_key_ok k kt l ts : plain k -> String.eqb kt "." = false ->
  read_key (St l (TNL :: toks_of (pkey k) ++ TId kt :: ts)) = (k, kt, St (S l) ts).
Proof.
  intros Hk Ht. unfold pkey. pose proof (split_dot_spec k) as H. destruct (split_dot k) as [[a b]|].
  - destruct H as [E P]. destruct (P Hk) as [Pa Pb]. unfold read_key, read_str, read_ident, scan, ch.
    cbn [toks_of flat_map app ln rest scan_from text String.eqb Ascii.eqb Bool.eqb]. rewrite !trim_plain by assumption.
    now rewrite E.
  - unfold read_key, read_str, read_ident, scan. cbn [toks_of flat_map app ln rest scan_from text].
    now rewrite trim_plain, Ht by assumption.
Qed.
Lemma read_typed_ok (q : string * param T) l r : text_param plain q ->
  read_typed (St l (TNL :: toks_of (w_param q) ++ r)) = (kept_param q, St (S l) (TNL :: r)).
Proof.
  intros [Hk Hv]. destruct q as [k v]. cbn [fst snd] in *. unfold w_param; cbn [fst snd]. rewrite toks_W.
  rewrite !toks_app, <- !app_assoc. unfold read_typed, sp.
  destruct v as [z|x|b|c|s]; try contradiction; rewrite toks_app; rewrite toks_W, toks_K, toks_W; cbn [app];
    rewrite <- app_assoc; rewrite read_key_ok by (assumption || reflexivity); cbn [String.eqb Ascii.eqb Bool.eqb toks_of flat_map app].
  - change (flat_map _ (pint z)) with (toks_of (pint z)). rewrite read_int_ok by assumption. reflexivity.
  - change (flat_map _ (pflt FV x)) with (toks_of (pflt FV x)). rewrite read_float_ok. reflexivity.
  - destruct b; reflexivity.
Qed.
Lemma filter_other {V} k (xs : list (string * V)) : ~ In k (map fst xs) ->
  filter (fun p => negb (String.eqb (fst p) k)) xs = xs.
Proof.
  induction xs as [|x xs IHx]; [reflexivity|]. intros Hx. cbn [filter map] in *.
  destruct (String.eqb_spec (fst x) k) as [E|E].
  - exfalso. apply Hx. left. exact E.
  - cbn. rewrite IHx; [reflexivity|]. intros H; apply Hx; now right.
Qed.
Lemma ex_fold (ps : list (string * param T)) e : NoDup (map fst ps) ->
  (forall k, In k (map fst (exParams e)) -> ~ In k (map fst ps)) ->
  fold_left ex_put ps e = set_ex_params e (exParams e ++ map kept_param ps).
Proof.
  revert e. induction ps as [|q ps IH]; intros e Hn Hd.
  - destruct e; cbn. unfold set_ex_params; cbn. now rewrite app_nil_r.
  - cbn [fold_left map] in *. inversion Hn as [|? ? Hq Hn']; subst.
    assert (E : map_set (exParams e) (fst (kept_param q)) (snd (kept_param q)) = exParams e ++ [kept_param q]).
    { unfold map_set. f_equal.
      apply filter_other. change (fst (kept_param q)) with (fst q). intros H. apply (Hd _ H). now left. }
    rewrite IH.
    + unfold ex_put, set_ex_params. cbn [exType exName exParams exMapping exMappingParams]. rewrite E, <- app_assoc. reflexivity.
    + assumption.
    + unfold ex_put, set_ex_params. cbn [exParams]. rewrite E, map_app. intros k Hk Hk'. apply in_app_or in Hk as [Hk|[<-|[]]].
      * apply (Hd k Hk). now right.
      * apply Hq. exact Hk'.
Qed.
Lemma skip_nl_id k l ts : skip (St l (TNL :: TId k :: ts)) = St (S l) ts.
Proof. reflexivity. Qed.
Lemma proc_obj_open {A} F n (h : handlers A) a l ts b q :
  n <= F -> (forall l, leaves (obj_loop F n h a (St l ts)) b q) ->
  leaves (proc_obj F h a (St l (TCh "{" :: TNL :: ts))) b q.
Proof.
  intros HF H. unfold proc_obj. rewrite skip_ch. destruct (H (S l)) as [l' E]. exists l'.
  eapply obj_loop_le; [exact HF|]. rewrite obj_nl. exact E.
Qed.
Lemma read_material_ex_ok F i (e : matex2 T) l r : 20 <= F -> text_ex2 plain plain e ->
  exists l', read_material_ex F (St l (TNL :: toks_of (w_ex2 i e) ++ r)) = Some (Z.of_nat i, kept_ex2 e, St l' (TNL :: r)).
Proof.
  intros HF (Ht & Hn & Hp & Hd). unfold w_ex2. tk.
  unfold read_material_ex. rewrite skip_nl_id, read_int_ok by lia.
  match goal with |- context [proc_obj F ex_handlers ?e0 ?s] => 
    assert (G : leaves (proc_obj F ex_handlers e0 s) (kept_ex2 e) (TNL :: r)) end.
  { apply (proc_obj_open F 20); [exact HF|]. intros l1.
    eapply obj_line; [reflexivity | reflexivity | intros; apply on_str; assumption |]. intros l2.
    eapply obj_line; [reflexivity | reflexivity | intros; apply on_str; assumption |]. intros l3.
    cbn [snd] in *.
    edestruct (proc_array_ok (fun e0 : matex2 T => set_ex_params e0 [])
      (fun e0 s => let '(k, v, s) := read_typed s in Some (set_ex_params e0 (map_set (exParams e0) k v), s))
      w_param ex_put (exParams e)) as [l4 E].
    2: { eapply obj_word; [reflexivity | reflexivity | cbn [snd]; apply E |]. rewrite obj_nl.
         rewrite ex_fold by (assumption || intros k []). apply obj_close. }
    intros a q l' r' Hq. rewrite read_typed_ok by (now apply (proj1 (Forall_forall _ _) Hp)).
    exists (S l'). destruct q; reflexivity. }
  destruct G as [l' ->]. exists l'. reflexivity.
Qed.

(** ** Objects *)
Definition put_vert (o : object T) (v : vec3 T) : object T := so_verts o (oVerts o ++ [rr3 FV v]).
Definition put_face (o : object T) (f : face T) : object T := so_faces o (oFaces o ++ [kept_face f]).
Lemma fold_vert vs o : fold_left put_vert vs o = so_verts o (oVerts o ++ map (rr3 FV) vs).
Proof.
  revert o. induction vs as [|v vs IH]; intros o; cbn [fold_left map].
  - rewrite app_nil_r. destruct o; reflexivity.
  - rewrite IH. unfold put_vert at 1 2, so_verts, upd_obj. cbn. now rewrite <- app_assoc.
Qed.
Lemma fold_face fs o : fold_left put_face fs o = so_faces o (oFaces o ++ map kept_face fs).
Proof.
  revert o. induction fs as [|v vs IH]; intros o; cbn [fold_left map].
  - rewrite app_nil_r. destruct o; reflexivity.
  - rewrite IH. unfold put_face at 1 2, so_faces, upd_obj. cbn. now rewrite <- app_assoc.
Qed.
Lemma read_vec_nl l ts : read_vec (St l (TNL :: ts)) = read_vec (St (S l) ts).
Proof. reflexivity. Qed.
Lemma read_uids_ok (u : Z -> Z) n j (o : object T) l r :
  (forall i, (0 <= i)%Z -> (0 <= u i)%Z) ->
  exists l', read_uids n (Z.of_nat j) o
    (St l (TNL :: toks_of (concat (map (fun i => W (tab ++ tab ++ tab)%string :: pint (u i) ++ [NL]) (map Z.of_nat (seq j n)))) ++ r)) =
  (so_ids o (rev (map (fun i => (u i, i)) (map Z.of_nat (seq j n))) ++ oVertexByUID o), St l' (TNL :: r)).
Proof.
  intros Hu. revert j o l. induction n as [|n IH]; intros j o l.
  - exists l. destruct o; reflexivity.
  - cbn [seq map concat read_uids]. tk. rewrite read_int_nl, read_int_ok by (apply Hu; lia).
    replace (Z.of_nat j + 1)%Z with (Z.of_nat (S j)) by lia.
    edestruct IH as [l' E]. rewrite E. exists l'. f_equal.
    cbn [rev]. rewrite <- app_assoc. reflexivity.
Qed.
Lemma w_uid_nonneg m i : Forall (fun p : Z * Z => (0 <= fst p)%Z) m -> (0 <= i)%Z -> (0 <= w_uid m i)%Z.
Proof.
  intros H Hi. unfold w_uid. assert (G : forall u, uid_of m i = Some u -> (0 <= u)%Z).
  { induction H as [|[u v] m Hu H IH]; [discriminate|]. cbn [uid_of]. destruct (uid_of m i) as [x|].
    - exact IH.
    - destruct (v =? i)%Z; [|discriminate]. intros w [= <-]. exact Hu. }
  destruct (uid_of m i) as [u|]; [|lia]. specialize (G u eq_refl). destruct (Z.eqb_spec u 0); lia.
Qed.


Ltac fld := eapply obj_line;
  [reflexivity | reflexivity | intros; cbn [snd]; first [apply on_float | apply on_vec | apply on_int; try lia] | intros ?].
Definition mirror_put (o a : object T) : object T :=
  so_mirror_dis (so_mirror a (oMirror o)) (reread F6 (oMirrorDis o)).
Definition patch_put (o a : object T) : object T := so_segment (so_patch a (oPatch o)) (oPatchSegment o).
Lemma vertexattr_ok F (o a : object T) l r : 40 <= F -> Forall (fun p => (0 <= fst p)%Z) (oVertexByUID o) ->
  length (oVerts a) = length (oVerts o) -> oVertexByUID a = [] ->
  exists l', proc_obj F vertexattr_handlers a (St l (TCh "{" :: TNL :: TId "uid" :: TCh "{" :: TNL ::
    toks_of (concat (map (fun i => W (tab ++ tab ++ tab)%string :: pint (w_uid (oVertexByUID o) i) ++ [NL]) (zseq (length (oVerts o))))) ++
    TCh "}" :: TNL :: TCh "}" :: TNL :: r)) =
  Some (so_ids a (rev (map (fun i => (w_uid (oVertexByUID o) i, i)) (zseq (length (oVerts o))))), St l' (TNL :: r)).
Proof.
  intros HF Hu Hl Ha.
  apply (proc_obj_open F 40); [exact HF|]. intros l1.
  destruct (read_uids_ok (w_uid (oVertexByUID o)) (length (oVerts o)) 0 a l1 (TCh "}" :: TNL :: TCh "}" :: TNL :: r)) as [l2 E].
  { intros. now apply w_uid_nonneg. }
  eapply obj_word; [reflexivity | reflexivity | |].
  { cbn [snd]. rewrite skip_ch, Hl. change 0%Z with (Z.of_nat 0). unfold zseq. rewrite E. 
    change (skip (St l2 (TNL :: TCh "}" :: TNL :: TCh "}" :: TNL :: r))) with (St (S l2) (TNL :: TCh "}" :: TNL :: r)).
    reflexivity. }
  rewrite obj_nl, Ha, app_nil_r. apply obj_close.
Qed.
Tactic Notation "acc_is" constr(x) "by" tactic3(t) := cbv beta; match goal with |- leaves (obj_loop _ _ _ ?a _) _ _ => replace a with x by t end.
Lemma max0 z : Z.max 0 z = if (0 <? z)%Z then z else 0%Z.
Proof. destruct (Z.ltb_spec 0 z); lia. Qed.
Lemma read_object_ok F (o : object T) l r : 40 <= F -> text_object plain o ->
  leaves (read_object F (St l (toks_of (tl (w_object o)) ++ r))) (kept_object o) (TNL :: r).
Proof.
  intros HF (Hn & Hd & Hs & Hm & Hp & Hu & Hf). unfold w_object, open_line at 1. cbn [app tl]. rewrite toks_sp, toks_K.
  unfold sp at 1. rewrite toks_W. unfold ch at 1, NL at 1. rewrite !toks_K. cbn [app].
  unfold read_object. rewrite read_str_ok by assumption.
  apply (proc_obj_open F 40); [exact HF|]. intros l1. rewrite !toks_app, <- !app_assoc.
  eapply obj_when; [intros Hc HH; apply Z.ltb_lt in Hc; fld; apply HH |]. intros l2.
  set (def := fun d v => match v with Some v => Some (rr3 FV v) | None => Some (mkV3 d d d) end : option (vec3 T)).
  acc_is (mkObj (Z.max 0 (oUID o)) (oName o) [] [] true false 0 false 1 facet0 0 0 0 nzero
    (def none None) (def nzero None) (def nzero None) None [] None) by (rewrite max0; destruct (0 <? oUID o)%Z; reflexivity).
  fld. 
  eapply obj_line; [reflexivity | reflexivity | intros; apply on_int; destruct (oFolding o); lia | intros l4].
  eapply (obj_opt _ _ _ (oScale o)); [intros v _ HH; fld; apply HH|]. intros l5.
  acc_is (mkObj (Z.max 0 (oUID o)) (oName o) [] [] true false (oDepth o) (oFolding o) 1 facet0 0 0 0 nzero
    (def none (oScale o)) (def nzero None) (def nzero None) None [] None) by (destruct (oScale o), (oFolding o); reflexivity).
  eapply (obj_opt _ _ _ (oRotation o)); [intros v _ HH; fld; apply HH|]. intros l6.
  acc_is (mkObj (Z.max 0 (oUID o)) (oName o) [] [] true false (oDepth o) (oFolding o) 1 facet0 0 0 0 nzero
    (def none (oScale o)) (def nzero (oRotation o)) (def nzero None) None [] None) by (destruct (oRotation o); reflexivity).
  eapply (obj_opt _ _ _ (oTranslation o)); [intros v _ HH; fld; apply HH|]. intros l7.
  eapply obj_when; [intros Hc HH; fld; apply HH |]. intros l8.
  acc_is (mkObj (Z.max 0 (oUID o)) (oName o) [] [] (oVisible o) false (oDepth o) (oFolding o) 1 facet0 0 0 0 nzero
    (def none (oScale o)) (def nzero (oRotation o)) (def nzero (oTranslation o)) None [] None) by (destruct (oTranslation o), (oVisible o); reflexivity).
  (* locking: two tokens nobody asks for *)
  unfold line at 1, sp at 1. rewrite toks_W, toks_K, toks_W, toks_app, toks_NL, toks_nil. rewrite app_cons, <- app_assoc.
  rewrite obj_unknown by (reflexivity || discriminate).
  replace (toks_of (pbool (oLocked o))) with [TNum true (if oLocked o then "1" else "0")] by (destruct (oLocked o); reflexivity).
  rewrite app_cons, obj_unknown; [ | reflexivity | discriminate | destruct (oLocked o); reflexivity | destruct (oLocked o); reflexivity ].
  rewrite app_nil_l', app_cons, app_nil_l', obj_nl.
  fld. fld.
  (* mirror and patch: two lines each *)
  eapply (leaves_le _ 27); [lia|].
  eapply (obj_when2 _ _ _ _ _ _ _ (mirror_put o _)).
  { intros Hc HH. rewrite toks_app, <- app_assoc. fld. fld. apply HH. }
  intros l10.
  eapply (obj_when2 _ _ _ _ _ _ _ (patch_put o _)).
  { intros Hc HH. apply Z.ltb_lt in Hc. rewrite toks_app, <- app_assoc. fld. fld. apply HH. }
  intros l11.
  eapply (obj_opt _ _ _ (oColor o)); [intros v _ HH; fld; apply HH|]. intros l12.
  acc_is (mkObj (Z.max 0 (oUID o)) (oName o) [] [] (oVisible o) false (oDepth o) (oFolding o) (oShading o) (reread FV (oFacet o))
    (if (0 <? oPatch o)%Z then oPatch o else 0%Z) (if (0 <? oPatch o)%Z then oPatchSegment o else 0%Z)
    (if negb (oMirror o =? 0)%Z || negb (neqb (oMirrorDis o) nzero) then oMirror o else 0%Z)
    (if negb (oMirror o =? 0)%Z || negb (neqb (oMirrorDis o) nzero) then reread F6 (oMirrorDis o) else nzero)
    (def none (oScale o)) (def nzero (oRotation o)) (def nzero (oTranslation o)) (option_map (rr3 F3) (oColor o)) [] None)
    by (destruct (oColor o), (0 <? oPatch o)%Z, (negb (oMirror o =? 0)%Z || negb (neqb (oMirrorDis o) nzero)); reflexivity).
  match goal with |- leaves (obj_loop _ _ _ ?a _) _ _ => set (a0 := a) end.
  (* vertices *)
  tk.
  destruct (proc_array_ok (fun o0 : object T => so_verts o0 []) (on read_vec (fun o0 v => so_verts o0 (oVerts o0 ++ [v])))
    (fun v => W (tab ++ tab)%string :: pvec FV v ++ [NL]) put_vert (oVerts o) a0 l12
    (TNL :: toks_of (when (negb (is_nil (oVertexByUID o))) (w_vertexattr o)) ++ TId "face" :: toks_of (plen (oFaces o)) ++
     TCh "{" :: TNL :: toks_of (concat (map w_face (oFaces o))) ++ TCh "}" :: TNL :: TCh "}" :: TNL :: r)) as [l13 E13].
  { intros a x l' r' _. unfold on. tk. rewrite read_vec_nl, read_vec_ok. exists (S l'). reflexivity. }
  eapply obj_word; [reflexivity | reflexivity | cbn [snd]; exact E13 |]. rewrite obj_nl, fold_vert. clear E13.
  match goal with |- leaves (obj_loop _ _ _ ?a _) _ _ => set (a1 := a) end.
  (* vertex ids *)
  match goal with |- leaves (obj_loop F (S ?n) ?h a1 (St _ (_ ++ ?ts))) ?b ?q =>
    assert (G : (forall l, leaves (obj_loop F n h (so_ids a1 (kept_ids (oVertexByUID o) (length (oVerts o)))) (St l ts)) b q) ->
       forall l, leaves (obj_loop F (S n) h a1 (St l (toks_of (when (negb (is_nil (oVertexByUID o))) (w_vertexattr o)) ++ ts))) b q) end.
  { intros HH l14. rewrite kept_ids_eq in HH. destruct (oVertexByUID o) as [|p0 m0] eqn:Eids.
    - apply leaves_mono. apply HH.
    - cbn [is_nil negb when]. unfold w_vertexattr. tk.
      edestruct (vertexattr_ok F o a1) as [l15 E15]; [exact HF | rewrite Eids; exact Hu | | |].
      3: { eapply obj_word; [reflexivity | reflexivity | cbn [snd]; exact E15 |]. rewrite obj_nl, Eids. apply HH. }
      + unfold a1. cbn. now rewrite map_length.
      + reflexivity. }
  apply G; clear G. intros l14.
  match goal with |- leaves (obj_loop _ _ _ ?a _) _ _ => set (a2 := a) end.
  destruct (proc_array_ok (fun o0 : object T => so_faces o0 [])
     (fun o0 s => match read_face F s with Some (f, s) => Some (so_faces o0 (oFaces o0 ++ [f]), s) | None => None end)
     w_face put_face (oFaces o) a2 l14 (TNL :: TCh "}" :: TNL :: r)) as [l15 E15].
  { intros a x l' r' Hx. destruct (read_face_ok F x l' r') as [l16 E]; [lia | now apply (proj1 (Forall_forall _ _) Hf) |].
    exists l16. rewrite E. reflexivity. }
  eapply obj_word; [reflexivity | reflexivity | cbn [snd]; exact E15 |]. rewrite obj_nl, fold_face.
  match goal with |- leaves (obj_loop _ _ _ ?a _) _ _ => replace a with (kept_object o) by reflexivity end.
  apply obj_close.
Qed.
Lemma w_object_head (o : object T) : toks_of (w_object o) = TId "Object" :: toks_of (tl (w_object o)).
Proof. reflexivity. Qed.

(** ** Scene *)
Lemma read_scene_ok F (s : scene T) l r : 40 <= F ->
  leaves (proc_obj F scene_handlers empty_scene (St l (toks_of (tl (w_scene s)) ++ r))) (kept_scene s) (TNL :: r).
Proof.
  intros HF. unfold w_scene, open_line. cbn [app tl]. rewrite toks_sp, toks_ch, toks_NL, !toks_app, toks_close. cbn [app].
  rewrite <- !app_assoc. apply (proc_obj_open F 40); [exact HF|]. intros l1.
  fld. fld. acc_is (mkScene (rr3 FV (scPos s)) (rr3 FV (scLook s)) zero3 nzero nzero nzero false None) by reflexivity.
  fld. fld. fld.
  acc_is (mkScene (rr3 FV (scPos s)) (rr3 FV (scLook s)) (rr3 F4 (scRot s)) nzero nzero nzero false None) by reflexivity.
  eapply obj_line; [reflexivity | reflexivity | intros; apply on_int; destruct (scOrtho s); lia | intros ?].
  fld.
  acc_is (mkScene (rr3 FV (scPos s)) (rr3 FV (scLook s)) (rr3 F4 (scRot s)) (reread F4 (scZoom2 s)) nzero nzero (scOrtho s) None)
    by (destruct (scOrtho s); reflexivity).
  eapply (obj_opt _ _ _ (scAmb s)); [intros v _ HH; fld; apply HH|]. intros ?.
  acc_is (mkScene (rr3 FV (scPos s)) (rr3 FV (scLook s)) (rr3 F4 (scRot s)) (reread F4 (scZoom2 s)) nzero nzero (scOrtho s)
     (option_map (rr3 F3) (scAmb s))) by (destruct (scAmb s); reflexivity).
  eapply obj_when; [intros Hc HH; fld; apply HH |]. intros ?.
  eapply obj_when; [intros Hc HH; fld; apply HH |]. intros ?.
  acc_is (kept_scene s) by (unfold kept_scene; destruct (scAmb s), (nltb nzero (scFront s)), (nltb nzero (scBack s)), (scOrtho s); reflexivity).
  apply obj_close.
Qed.

(** ** The whole file *)
Lemma main_mono F n (d : text_doc T) s x : main_loop F n d s = Some x -> main_loop F (S n) d s = Some x.
Proof.
  revert d s. induction n as [|n IH]; [discriminate|]. intros d s H.
  remember (S n) as m eqn:Em. cbn [main_loop]. rewrite Em in H. cbn [main_loop] in H.
  destruct (scan s) as [t s1]. destruct t; try (now apply IH); try exact H.
  repeat match goal with
  | |- context [if ?b then _ else _] => destruct b
  end; try exact H; try (now apply IH);
  repeat match type of H with
  | match ?y with Some _ => _ | None => _ end = _ => destruct y as [[? ?]|] || destruct y; try discriminate
  end; try (now apply IH).
  destruct (read_str s1). now apply IH.
Qed.
Lemma main_le F n m (d : text_doc T) s x : n <= m -> main_loop F n d s = Some x -> main_loop F m d s = Some x.
Proof. induction 1; [auto|]. intros H'. apply main_mono; auto. Qed.
Lemma main_nl F n (d : text_doc T) l ts : main_loop F n d (St l (TNL :: ts)) = main_loop F n d (St (S l) ts).
Proof. destruct n; reflexivity. Qed.

(** The extended materials with their indices. *)
Fixpoint exs (i : nat) (ms : list (material T)) : list (nat * matex2 T) :=
  match ms with
  | [] => []
  | m :: r => match mtEx2 m with Some e => (i, e) :: exs (S i) r | None => exs (S i) r end
  end.
Lemma exs_pieces i (ms : list (material T)) : w_ex2s i ms = concat (map (fun p => w_ex2 (fst p) (snd p)) (exs i ms)).
Proof.
  revert i. induction ms as [|m ms IH]; intros i; [reflexivity|]. cbn [w_ex2s exs].
  destruct (mtEx2 m); cbn [opt map concat app fst snd]; now rewrite IH.
Qed.
Lemma exs_length i (ms : list (material T)) : length (exs i ms) = length (filter has_ex2 ms).
Proof.
  revert i. induction ms as [|m ms IH]; intros i; [reflexivity|]. cbn [exs filter]. unfold has_ex2 at 1.
  destruct (mtEx2 m); cbn [length]; now rewrite IH.
Qed.
Definition put_doc_ex (d : text_doc T) (p : nat * matex2 T) : text_doc T :=
  td_mats d (put_ex (dMaterials (tdDoc d)) (Z.of_nat (fst p)) (kept_ex2 (snd p))).
Lemma put_ex_app (pre : list (material T)) m post e :
  put_ex (pre ++ m :: post) (Z.of_nat (length pre)) e = pre ++ set_mt_ex2 m (Some e) :: post.
Proof.
  unfold put_ex. destruct (Z.leb_spec 0 (Z.of_nat (length pre))); [|lia]. rewrite Nat2Z.id.
  clear H. induction pre as [|a pre IH]; [reflexivity|]. cbn. f_equal. exact IH.
Qed.
Lemma fold_ex (ms : list (material T)) pre (d : text_doc T) :
  dMaterials (tdDoc d) = pre ++ map (fun m => no_ex2 (kept_material m)) ms ->
  fold_left put_doc_ex (exs (length pre) ms) d = td_mats d (pre ++ map kept_material ms).
Proof.
  revert pre d. induction ms as [|m ms IH]; intros pre d Hd.
  - cbn in *. rewrite <- Hd. destruct d as [? ? []]; reflexivity.
  - cbn [exs map] in *. destruct (mtEx2 m) as [e|] eqn:Ee.
    + cbn [fold_left]. replace (S (length pre)) with (length (pre ++ [kept_material m])) by (rewrite app_length; cbn; lia).
      rewrite IH.
      * unfold put_doc_ex, td_mats; cbn. now rewrite <- app_assoc.
      * unfold put_doc_ex, td_mats; cbn [tdDoc dMaterials fst snd]. rewrite Hd, put_ex_app, <- app_assoc. cbn [app]. f_equal. f_equal.
        unfold no_ex2, kept_material; cbn. now rewrite Ee.
    + replace (S (length pre)) with (length (pre ++ [kept_material m])) by (rewrite app_length; cbn; lia).
      rewrite IH.
      * now rewrite <- app_assoc.
      * rewrite Hd, <- app_assoc. cbn [app]. f_equal. f_equal. unfold no_ex2, kept_material; cbn. now rewrite Ee.
Qed.
Lemma exs_in i p (ms : list (material T)) : In p (exs i ms) -> exists m, In m ms /\ mtEx2 m = Some (snd p).
Proof.
  revert i. induction ms as [|m ms IH]; intros i; [intros []|]. cbn [exs]. destruct (mtEx2 m) as [e|] eqn:Ee.
  - intros [<-|H]; [exists m; split; [now left|exact Ee]|]. destruct (IH _ H) as (m' & ? & ?). exists m'; split; [now right|assumption].
  - intros H. destruct (IH _ H) as (m' & ? & ?). exists m'; split; [now right|assumption].
Qed.
Definition put_mat (d : text_doc T) (m : material T) : text_doc T :=
  td_mats d (dMaterials (tdDoc d) ++ [no_ex2 (kept_material m)]).
Lemma fold_mat ms d : fold_left put_mat ms d = td_mats d (dMaterials (tdDoc d) ++ map (fun m => no_ex2 (kept_material m)) ms).
Proof.
  revert d. induction ms as [|m ms IH]; intros d; cbn [fold_left map].
  - rewrite app_nil_r. destruct d as [? ? []]; reflexivity.
  - rewrite IH. unfold put_mat, td_mats; cbn. now rewrite <- app_assoc.
Qed.
Definition put_obj (d : text_doc T) (o : object T) : text_doc T := td_objs d (dObjects (tdDoc d) ++ [kept_object o]).
Lemma fold_obj os d : fold_left put_obj os d = td_objs d (dObjects (tdDoc d) ++ map kept_object os).
Proof.
  revert d. induction os as [|o os IH]; intros d; cbn [fold_left map].
  - rewrite app_nil_r. destruct d as [? ? []]; reflexivity.
  - rewrite IH. unfold put_obj, td_objs; cbn. now rewrite <- app_assoc.
Qed.

Lemma main_objects F n (os : list (object T)) d l r x : 40 <= F -> Forall (text_object plain) os ->
  (forall l, main_loop F n (fold_left put_obj os d) (St l r) = Some x) ->
  main_loop F (length os + n) d (St l (toks_of (concat (map w_object os)) ++ r)) = Some x.
Proof.
  intros HF Ho. revert d l. induction Ho as [|o os Ho Hos IH]; intros d l H; [apply H|].
  cbn [map concat length Nat.add]. rewrite toks_app, w_object_head, <- app_assoc. cbn [app main_loop].
  unfold scan; cbn [ln rest scan_from]. 
  change (String.eqb "Object" "Material") with false. change (String.eqb "Object" "Object") with true. cbn iota.
  destruct (read_object_ok F o l (toks_of (concat (map w_object os)) ++ r) HF Ho) as [l' E].
  rewrite E, main_nl. apply IH. exact H.
Qed.
Lemma main_include F n (f : option string) (d : text_doc T) l r x :
  tdInclude d = None -> (forall g, f = Some g -> plain g /\ g <> "") ->
  (forall l, main_loop F n (mkTD f (tdScene d) (tdDoc d)) (St l r) = Some x) ->
  main_loop F (S n) d (St l (toks_of (opt f w_include) ++ r)) = Some x.
Proof.
  intros Hd Hf H. destruct f as [g|]; cbn [opt].
  - destruct (Hf g eq_refl) as [Hp He]. unfold w_include. tk. cbn [main_loop]. unfold scan; cbn [ln rest scan_from].
    cbn [String.eqb Ascii.eqb Bool.eqb]. rewrite read_str_ok by assumption.
    destruct (String.eqb_spec g ""); [contradiction|]. rewrite main_nl. apply H.
  - apply main_mono. specialize (H l). destruct d as [i sc dd]. cbn in *. subst i. exact H.
Qed.
Lemma main_scene F n (sc : option (scene T)) (d : text_doc T) l r x : 40 <= F -> tdScene d = None ->
  (forall l, main_loop F n (mkTD (tdInclude d) (option_map kept_scene sc) (tdDoc d)) (St l r) = Some x) ->
  main_loop F (S n) d (St l (toks_of (opt sc w_scene) ++ r)) = Some x.
Proof.
  intros HF Hd H. destruct sc as [s|]; cbn [opt].
  - change (toks_of (w_scene s)) with (TId "Scene" :: toks_of (tl (w_scene s))). rewrite app_cons.
    cbn [main_loop]. unfold scan; cbn [ln rest scan_from String.eqb Ascii.eqb Bool.eqb].
    destruct (read_scene_ok F s l r HF) as [l' E]. rewrite E, main_nl. apply H.
  - apply main_mono. specialize (H l). destruct d as [i sc dd]. cbn in *. subst sc. exact H.
Qed.
Lemma main_materials F n (ms : list (material T)) (d : text_doc T) l r x : 40 <= F -> Forall (text_material plain plain plain) ms ->
  dMaterials (tdDoc d) = [] ->
  (forall l, main_loop F n (td_mats d (map kept_material ms)) (St l r) = Some x) ->
  main_loop F (S (S n)) d (St l (toks_of (w_materials ms) ++ r)) = Some x.
Proof.
  intros HF Hms Hd H. unfold w_materials. tk. remember (S n) as k eqn:Ek. cbn [main_loop]. unfold scan; cbn [ln rest scan_from].
  cbn [String.eqb Ascii.eqb Bool.eqb].
  edestruct (proc_array_ok (fun d0 : text_doc T => d0)
     (fun d0 s => match read_material F s with
        | Some (m, s) => Some (td_mats d0 (dMaterials (tdDoc d0) ++ [m]), s) | None => None end) w_material put_mat ms d l)
     as [l1 E1].
  2: { rewrite E1. clear E1. subst k. rewrite main_nl, fold_mat, Hd, app_nil_l'.
    match goal with |- main_loop F (S n) ?a _ = _ => set (d1 := a) end.
    assert (E2 : dMaterials (tdDoc d1) = [] ++ map (fun m => no_ex2 (kept_material m)) ms) by reflexivity.
    assert (E3 : fold_left put_doc_ex (exs 0 ms) d1 = td_mats d (map kept_material ms)).
    { change 0 with (length (@nil (material T))). rewrite (fold_ex ms [] d1 E2). reflexivity. }
    destruct (existsb has_ex2 ms) eqn:Eex; cbn [when].
    - rewrite exs_pieces. tk. cbn [main_loop]. unfold scan; cbn [ln rest scan_from].
      cbn [String.eqb Ascii.eqb Bool.eqb]. unfold plen. rewrite <- (exs_length 0 ms).
      change (pint (Z.of_nat (length (exs 0 ms)))) with (plen (exs 0 ms)).
      edestruct (proc_array_ok (fun d0 : text_doc T => d0)
        (fun d0 s => match read_material_ex F s with
           | Some (mid, e, s) => Some (td_mats d0 (put_ex (dMaterials (tdDoc d0)) mid e), s) | None => None end)
        (fun p => w_ex2 (fst p) (snd p)) put_doc_ex (exs 0 ms) d1 (S l1)) as [l2 E4].
      2: { rewrite E4, main_nl, E3. apply H. }
      intros a p l' r' Hp. destruct (exs_in 0 p ms Hp) as (m & Hm & Em).
      destruct (read_material_ex_ok F (fst p) (snd p) l' r') as [l3 E5]; [lia | |].
      + apply (proj1 (Forall_forall _ _) Hms) in Hm. apply Hm. exact Em.
      + exists l3. rewrite E5. reflexivity.
    - apply main_mono. replace (exs 0 ms) with (@nil (nat * matex2 T)) in E3.
      + cbn [fold_left] in E3. rewrite E3. apply H.
      + symmetry. apply length_zero_iff_nil. rewrite exs_length. clear - Eex. induction ms as [|m ms IH]; [reflexivity|].
        cbn [existsb filter] in *. apply orb_false_iff in Eex as [-> E]. now apply IH. }
  intros a m l' r' Hm. destruct (read_material_ok F m l' r') as [l3 E5]; [lia | |].
  - now apply (proj1 (Forall_forall _ _) Hms).
  - exists l3. rewrite E5. reflexivity.
Qed.
Lemma objects_tokens (os : list (object T)) : length os <= length (toks_of (concat (map w_object os))).
Proof.
  induction os as [|o os IH]; [cbn; lia|]. cbn [map concat]. rewrite toks_app, w_object_head, app_length. cbn [length]. lia.
Qed.
Theorem parse_write (d : text_doc T) : text_dom plain plain plain d -> parse_toks (toks_of (write_mqo d)) = Some (kept_doc d).
Proof.
  intros (Hi & Hm & Ho). unfold parse_toks.
  set (F := 100 + length (toks_of (write_mqo d))).
  set (os := dObjects (tdDoc d)) in *.
  assert (HF : 40 <= F) by (unfold F; lia).
  assert (HL : 8 + (1 + (1 + (2 + (length os + 2)))) <= F).
  { unfold F, write_mqo. rewrite !toks_app, !app_length. pose proof (objects_tokens os). fold os. lia. }
  eapply main_le; [exact HL|].
  unfold write_mqo. rewrite !toks_app. cbn [Nat.add].
  change (toks_of w_header ++ ?x) with (toks_of w_header ++ x).
  match goal with |- main_loop F _ ?d0 (St 1 (toks_of w_header ++ ?ts)) = _ =>
    transitivity (main_loop F (1 + (1 + (2 + (length os + 2)))) d0 (St 5 ts)) end.
  { reflexivity. }
  apply main_include; [reflexivity | exact Hi |]. intros l1.
  apply main_scene; [exact HF | reflexivity |]. intros l2.
  apply main_materials; [exact HF | exact Hm | reflexivity |]. intros l3.
  apply main_objects; [exact HF | exact Ho |]. intros l4.
  rewrite fold_obj. destruct d as [inc sc [ms os']]. reflexivity.
Qed.
End Proofs.
