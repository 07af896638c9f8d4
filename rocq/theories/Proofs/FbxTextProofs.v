(** Proofs about FBX text. *)
From Coq Require Import List ZArith Bool Lia.
From Verif Require Import Model.Codec Model.Fbx Model.FbxText Spec.FbxTextSpec Proofs.FbxLayout.
Import ListNotations.
Local Open Scope Z_scope.
Local Open Scope list_scope.

(** ** Reader states: nothing or one byte pushed back *)

Definition good (s : tst) (b : bytes) : Prop :=
  s = mkT [] b None \/ exists c r, b = c :: r /\ s = mkT [c] r None.

Lemma good_ok s b : good s b -> t_err s = None.
Proof. intros [->|(c & r & _ & ->)]; reflexivity. Qed.
Lemma good_tok s b : good s b -> t_ok s = true.
Proof. intros [->|(c & r & _ & ->)]; reflexivity. Qed.
Lemma good_room s b : good s b -> room s = S (S (length b)).
Proof. intros [->|(c & r & -> & ->)]; reflexivity. Qed.
Lemma read_good s c b : good s (c :: b) -> t_read s = (c, mkT [] b None).
Proof. intros [->|(c' & r & E & ->)]; [reflexivity|]. injection E as <- <-. reflexivity. Qed.
Lemma unread_good c b : good (unread c (mkT [] b None)) (c :: b).
Proof. right. exists c, b. split; reflexivity. Qed.
Lemma good_clean b : good (mkT [] b None) b.
Proof. left. reflexivity. Qed.

Lemma take_good f l : forall n c e r x, (length l < n)%nat ->
  l ++ e :: r = c :: x -> forallb f l = true -> f e = false ->
  take_while n f c (mkT [] x None) = (l, e, mkT [] r None).
Proof.
  induction l as [|a l IH]; intros n c e r x Hn E Hf He; (destruct n; [cbn in Hn; lia|]); cbn [app] in E; injection E as <- <-.
  - cbn [take_while]. rewrite He. reflexivity.
  - cbn [forallb] in Hf. apply andb_prop in Hf. destruct Hf as [Ha Hl].
    cbn [take_while t_ok t_err]. rewrite Ha. cbn [andb].
    destruct (l ++ e :: r) as [|c' x'] eqn:E'; [destruct l; discriminate|].
    cbn [t_read t_buf t_err t_in].
    rewrite (IH n c' e r x'); auto. cbn [length] in Hn. lia.
Qed.

(** [Tok b t x r]: the next token of input [b] is [t] with text [x], and [r] is left. *)
Definition Tok (b : bytes) (t : ttype) (x r : bytes) : Prop :=
  forall n s, good s b -> (length b < n)%nat ->
  exists s', token n s = (t, x, s') /\ good s' r.

Lemma tok_get b t x r s : Tok b t x r -> good s b -> exists s', get_token s = (t, x, s') /\ good s' r.
Proof. intros H G. apply (H (room s) s G). rewrite (good_room _ _ G). lia. Qed.

Lemma tok_space b t x r : Tok b t x r -> Tok (32 :: b) t x r.
Proof.
  intros H n s G Hn. destruct n; [cbn in Hn; lia|]. cbn [token].
  rewrite (good_tok _ _ G). cbn [negb]. rewrite (read_good _ _ _ G). cbn.
  apply H; [apply good_clean | cbn [length] in Hn; lia].
Qed.
Lemma tok_spaces k b t x r : Tok b t x r -> Tok (repeat 32 k ++ b) t x r.
Proof. intros H. induction k; [exact H|]. cbn [repeat app]. apply tok_space. exact IHk. Qed.
Lemma tok_indent d b t x r : Tok b t x r -> Tok (indent d ++ b) t x r.
Proof. apply tok_spaces. Qed.

Ltac tok_start :=
  let n := fresh "n" in let s := fresh "s" in let G := fresh "G" in let Hn := fresh "Hn" in
  intros n s G Hn; (destruct n; [cbn in Hn; lia|]); cbn [token];
  rewrite (good_tok _ _ G); cbn [negb]; rewrite (read_good _ _ _ G).

Lemma tok_open r : Tok (123 :: r) TOpen [123] r.
Proof. tok_start. cbn. eexists. split; [reflexivity|apply good_clean]. Qed.
Lemma tok_close r : Tok (125 :: r) TClose [125] r.
Proof. tok_start. cbn. eexists. split; [reflexivity|apply good_clean]. Qed.
Lemma tok_comma r : Tok (44 :: r) TComma [44] r.
Proof. tok_start. cbn. eexists. split; [reflexivity|apply good_clean]. Qed.
Lemma tok_colon r : Tok (58 :: r) TColon [58] r.
Proof. tok_start. cbn. eexists. split; [reflexivity|apply good_clean]. Qed.
Lemma tok_star r : Tok (42 :: r) TStar [42] r.
Proof. tok_start. cbn. eexists. split; [reflexivity|apply good_clean]. Qed.
Lemma tok_eol r : Tok (10 :: r) TEol [] r.
Proof. tok_start. cbn. eexists. split; [reflexivity|apply good_clean]. Qed.

Lemma tok_comment l r : ~ In 10 l -> Tok (59 :: l ++ 10 :: r) TEol [] r.
Proof.
  intros Hl. tok_start. rewrite Z.eqb_refl.
  assert (E : take_while (room (mkT [] (l ++ 10 :: r) None)) (fun c => negb (c =? 10)) 59 (mkT [] (l ++ 10 :: r) None)
            = (59 :: l, 10, mkT [] r None)).
  { apply take_good.
    - unfold room. cbn [t_buf t_in length]. rewrite app_length. cbn. lia.
    - reflexivity.
    - apply forallb_forall. intros c [<-|Hc]; [reflexivity|]. apply negb_true_iff, Z.eqb_neq. intros ->. auto.
    - reflexivity. }
  rewrite E. eexists. split; [reflexivity|apply good_clean].
Qed.

Lemma tok_string l r : Forall (fun c => c <> 34) l -> Tok (34 :: l ++ 34 :: r) TString l r.
Proof.
  intros Hl. tok_start. cbn - [take_while t_read room].
  destruct (l ++ 34 :: r) as [|c x] eqn:E; [destruct l; discriminate|].
  cbn [t_read t_buf t_err t_in].
  rewrite (take_good _ l _ c 34 r x).
  - eexists. split; [reflexivity|apply good_clean].
  - unfold room. cbn [t_buf t_in length]. assert (length (c :: x) = length (l ++ 34 :: r)) by now rewrite E.
    rewrite app_length in H. cbn in H. lia.
  - exact E.
  - apply forallb_forall. intros a Ha. rewrite Forall_forall in Hl. apply negb_true_iff, Z.eqb_neq. auto.
  - reflexivity.
Qed.

Ltac zb := repeat match goal with
  | |- context [?a =? ?b] => let H := fresh in destruct (Z.eqb_spec a b) as [H|H]; try lia
  | |- context [?a <=? ?b] => let H := fresh in destruct (Z.leb_spec a b) as [H|H]; try lia
  | |- context [?a <? ?b] => let H := fresh in destruct (Z.ltb_spec a b) as [H|H]; try lia
  end.

Lemma num_start_cases c : num_start c = true -> c = 46 \/ c = 45 \/ 48 <= c <= 57.
Proof. unfold num_start, is_digit. intros H. apply orb_prop in H as [H|H]; [apply orb_prop in H as [H|H]|].
  - apply andb_prop in H as [H1 H2]. apply Z.leb_le in H1, H2. lia.
  - apply Z.eqb_eq in H. lia.
  - apply Z.eqb_eq in H. lia.
Qed.

Lemma tok_number c l e r : num_start c = true -> forallb num_char l = true -> num_char e = false ->
  Tok (c :: l ++ e :: r) TNumber (c :: l) (e :: r).
Proof.
  intros Hc Hl He. tok_start.
  assert (Hr := num_start_cases _ Hc).
  destruct (Z.eqb_spec c 59); [lia|]. destruct (Z.eqb_spec c 123); [lia|].
  destruct (Z.eqb_spec c 125); [lia|]. destruct (Z.eqb_spec c 44); [lia|].
  destruct (Z.eqb_spec c 58); [lia|]. destruct (Z.eqb_spec c 42); [lia|].
  rewrite Hc. destruct (l ++ e :: r) as [|c2 x] eqn:E; [destruct l; discriminate|].
  cbn [t_read t_buf t_err t_in].
  rewrite (take_good _ l _ c2 e r x).
  - eexists. split; [reflexivity|apply unread_good].
  - unfold room. cbn [t_buf t_in length]. assert (length (c2 :: x) = length (l ++ e :: r)) by now rewrite E.
    rewrite app_length in H. cbn in H. lia.
  - exact E.
  - exact Hl.
  - exact He.
Qed.

Lemma id_start_cases c : id_start c = true -> 65 <= c <= 122.
Proof. unfold id_start. intros H. apply andb_prop in H as [H1 H2]. apply Z.leb_le in H1, H2. lia. Qed.
Lemma start_char c : id_start c = true -> id_char c = true.
Proof. unfold id_char. intros ->. reflexivity. Qed.

Lemma tok_ident c l e r : id_start c = true -> forallb id_char l = true -> id_char e = false ->
  Tok (c :: l ++ e :: r) TIdent (c :: l) (e :: r).
Proof.
  intros Hc Hl He. tok_start.
  assert (Hr := id_start_cases _ Hc).
  destruct (Z.eqb_spec c 59); [lia|]. destruct (Z.eqb_spec c 123); [lia|].
  destruct (Z.eqb_spec c 125); [lia|]. destruct (Z.eqb_spec c 44); [lia|].
  destruct (Z.eqb_spec c 58); [lia|]. destruct (Z.eqb_spec c 42); [lia|].
  destruct (num_start c) eqn:En; [apply num_start_cases in En; lia|].
  destruct (Z.eqb_spec c 10); [lia|]. destruct (Z.eqb_spec c 34); [lia|].
  rewrite Hc.
  rewrite (take_good _ (c :: l) _ c e r (l ++ e :: r)).
  - eexists. split; [reflexivity|apply unread_good].
  - unfold room. cbn [t_buf t_in length]. rewrite app_length. cbn. lia.
  - reflexivity.
  - cbn [forallb]. rewrite (start_char _ Hc). exact Hl.
  - exact He.
Qed.

Lemma tok_end s : good s [] -> exists s', get_token s = (TEol, [], s') /\ t_err s' = Some EEof.
Proof.
  intros [->|(c & r & E & _)]; [|discriminate]. eexists. split; reflexivity.
Qed.

(** ** Decimal notation *)

Lemma digits_val_app a b acc :
  digits_val acc (a ++ b) = match digits_val acc a with Some v => digits_val v b | None => None end.
Proof.
  revert acc. induction a as [|c a IH]; intros acc; [reflexivity|]. cbn [app digits_val].
  destruct (is_digit c); [apply IH | reflexivity].
Qed.

Lemma digits_spec n : forall z, 0 <= z < 10 * 2 ^ Z.of_nat n ->
  Forall digit_char (digits (S n) z) /\ digits (S n) z <> [] /\ horner (digits (S n) z) = z.
Proof.
  induction n as [|n IH]; intros z Hz.
  - cbn [digits]. destruct (Z.ltb_spec z 10).
    + split; [repeat constructor; lia|]. split; [discriminate|]. unfold horner, fold_left. lia.
    + cbn in Hz. lia.
  - remember (S n) as m. cbn [digits]. subst m. destruct (Z.ltb_spec z 10).
    + split; [repeat constructor; lia|]. split; [discriminate|]. unfold horner, fold_left. lia.
    + assert (Hd : 0 <= z / 10 < 10 * 2 ^ Z.of_nat n).
      { rewrite Nat2Z.inj_succ, Z.pow_succ_r in Hz by lia. split; [apply Z.div_pos; lia|].
        apply Z.div_lt_upper_bound; lia. }
      destruct (IH _ Hd) as (F & N & V).
      pose proof (Z.mod_pos_bound z 10 ltac:(lia)).
      split; [apply Forall_app; split; [exact F|repeat constructor; lia]|].
      split; [intros E; apply app_eq_nil in E as [_ E]; discriminate|].
      unfold horner in *. rewrite fold_left_app, V. cbn [fold_left].
      pose proof (Z.div_mod z 10 ltac:(lia)). lia.
Qed.

Lemma digits_log z : 0 <= z -> 0 <= z < 10 * 2 ^ Z.of_nat (Z.to_nat (Z.log2 z)).
Proof.
  intros Hz. split; [exact Hz|]. rewrite Z2Nat.id by apply Z.log2_nonneg.
  destruct (Z.eq_dec z 0) as [->|].
  - cbn. lia.
  - destruct (Z.log2_spec z ltac:(lia)) as [_ H]. rewrite Z.pow_succ_r in H by apply Z.log2_nonneg.
    assert (0 < 2 ^ Z.log2 z) by (apply Z.pow_pos_nonneg; [lia|apply Z.log2_nonneg]). lia.
Qed.

Lemma show_decimal z : decimal (show z) z.
Proof.
  unfold show. destruct (Z.ltb_spec z 0).
  - destruct (digits_spec _ _ (digits_log (- z) ltac:(lia))) as (F & N & V).
    split; [discriminate|]. right. eexists. repeat split; eauto. lia.
  - destruct (digits_spec _ _ (digits_log z ltac:(lia))) as (F & N & V).
    split; [exact N|]. left. split; [exact F|lia].
Qed.

Lemma digit_is c : digit_char c -> is_digit c = true.
Proof. unfold digit_char, is_digit. intros [? ?]. apply andb_true_iff. split; apply Z.leb_le; lia. Qed.

Lemma digits_val_horner d : Forall digit_char d -> forall acc,
  digits_val acc d = Some (fold_left (fun a c => 10 * a + (c - 48)) d acc).
Proof.
  induction 1 as [|c d Hc _ IH]; intros acc; [reflexivity|]. cbn [digits_val fold_left].
  rewrite (digit_is _ Hc). apply IH.
Qed.

Lemma parse_decimal k s v : decimal s v -> - 2 ^ (k - 1) <= v < 2 ^ (k - 1) -> parse_int k s = Some v.
Proof.
  intros [N [[F ->]|(d & -> & Nd & F & ->)]] Hv.
  - destruct s as [|c s]; [congruence|]. unfold parse_int.
    destruct (Z.eqb_spec c 45); [inversion F; unfold digit_char in *; lia|].
    rewrite digits_val_horner by exact F. fold (horner (c :: s)).
    destruct (Z.leb_spec (- 2 ^ (k - 1)) (horner (c :: s))); [|lia].
    destruct (Z.ltb_spec (horner (c :: s)) (2 ^ (k - 1))); [|lia]. reflexivity.
  - unfold parse_int. rewrite Z.eqb_refl. destruct d as [|c d]; [congruence|].
    rewrite digits_val_horner by exact F. fold (horner (c :: d)).
    destruct (Z.leb_spec (- 2 ^ (k - 1)) (- horner (c :: d))); [|lia].
    destruct (Z.ltb_spec (- horner (c :: d)) (2 ^ (k - 1))); [|lia]. reflexivity.
Qed.

Lemma decimal_number s v : decimal s v -> number s /\ ~ In 46 s.
Proof.
  intros [N [[F _]|(d & -> & Nd & F & _)]].
  - split.
    + destruct s as [|c s]; [congruence|]. inversion F; subst. exists c, s. split; [reflexivity|]. split; [auto|].
      eapply Forall_impl; [|eassumption]. auto.
    + intros H. rewrite Forall_forall in F. specialize (F _ H). unfold digit_char in F. lia.
  - split.
    + exists 45, d. split; [reflexivity|]. split; [auto|]. eapply Forall_impl; [|eassumption]. auto.
    + intros [H|H]; [lia|]. rewrite Forall_forall in F. specialize (F _ H). unfold digit_char in F. lia.
Qed.

Lemma num_char_ok c : digit_char c \/ c = 46 \/ c = 45 \/ c = 101 -> num_char c = true.
Proof.
  unfold num_char. intros [H|[-> |[-> | ->]]]; try reflexivity. rewrite (digit_is _ H). reflexivity.
Qed.
Lemma number_tok s e r : number s -> num_char e = false -> Tok (s ++ e :: r) TNumber s (e :: r).
Proof.
  intros (c & l & -> & Hc & Hl) He. cbn [app]. apply tok_number; auto.
  - unfold num_start. destruct Hc as [H| ->]; [rewrite (digit_is _ H)|]; reflexivity.
  - apply forallb_forall. rewrite Forall_forall in Hl. intros x Hx. apply num_char_ok. auto.
Qed.
Lemma point_has s : In 46 s -> has_point s = true.
Proof. intros H. apply existsb_exists. exists 46. split; [exact H|reflexivity]. Qed.
Lemma no_point s : ~ In 46 s -> has_point s = false.
Proof.
  intros H. unfold has_point. destruct (existsb (Z.eqb 46) s) eqn:E; [|reflexivity].
  apply existsb_exists in E as (c & Hc & E). apply Z.eqb_eq in E. subst. contradiction.
Qed.

(** ** Strings *)

Lemma plain_escape s : Forall plain s -> flat_map escape s = s.
Proof.
  induction 1 as [|c s Hc _ IH]; [reflexivity|]. cbn [flat_map]. rewrite IH.
  assert (E : escape c = [c]).
  { destruct Hc as (Hr & H1 & H2 & H3). unfold escape. zb. reflexivity. }
  rewrite E. reflexivity.
Qed.
Lemma plain_no_quote s : Forall plain s -> Forall (fun c => c <> 34) s.
Proof. apply Forall_impl. intros c (_ & H & _). exact H. Qed.

Lemma split01_plain s : Forall plain s -> split01 s = None.
Proof.
  induction 1 as [|c s Hc _ IH]; [reflexivity|]. cbn [split01]. rewrite IH.
  destruct Hc as (Hr & _). destruct c; try reflexivity. lia.
Qed.
Lemma split01_class a b : Forall plain a -> split01 (a ++ [0; 1] ++ b) = Some (a, b).
Proof.
  induction 1 as [|c s Hc _ IH]; [reflexivity|]. cbn [app split01]. cbn [app] in IH. rewrite IH.
  destruct Hc as (Hr & _). destruct c; try reflexivity. lia.
Qed.

(** ** The parser on written text *)

Section Reading.
Variable parse_float : bytes -> Z * bool.
Variable to_i32 : Z -> Z.
Variable fmt32 fmt64 : Z -> bytes.
Hypothesis exact_ints : int_floats parse_float to_i32.
Notation node_list := (node_list parse_float to_i32).
Notation attr_loop := (attr_loop parse_float to_i32).
Notation dump_attrs := (dump_attrs fmt32 fmt64).
Notation dump := (dump fmt32 fmt64 true).
Notation reads_as := (reads_as parse_float fmt32 fmt64).
Notation attrs_as := (attrs_as parse_float fmt32 fmt64).
Notation tree_as := (tree_as parse_float fmt32 fmt64).
Notation trees_as := (trees_as parse_float fmt32 fmt64).

Lemma node_list_step n s : node_list (S n) s =
  if negb (t_ok s) then ([], s) else
  let '(t, x, s1) := get_token s in
  match t with
  | TEol => node_list n s1
  | TClose => ([], s1)
  | TIdent =>
      let '(a, k, s2) := attr_loop n TColon (t_skip TColon s1) in
      let s3 := match t_err s2 with
                | Some EEof => mkT (t_buf s2) (t_in s2) (Some EOther)
                | _ => s2 end in
      let (l, s4) := node_list n s3 in
      (Node x a k :: l, s4)
  | _ => ([], t_fail EOther s1)
  end.
Proof. reflexivity. Qed.

Lemma attr_loop_step n prev s : attr_loop (S n) prev s =
  if negb (t_ok s) then ([], [], s) else
  let '(t, x, s1) := get_token s in
  if ttype_eqb t TEol && negb (ttype_eqb prev TComma) then ([], [], s1) else
  match t with
  | TOpen => let (k, s2) := node_list n s1 in ([], k, s2)
  | TNumber =>
      let '(v, s2) :=
        if has_point x
        then let (f, ok) := parse_float x in (AF64 f, if ok then s1 else t_fail EOther s1)
        else match parse_int 64 x with
             | Some v => (AI64 v, s1)
             | None => (AI64 0, t_fail EOther s1)
             end in
      let '(a, k, s3) := attr_loop n t s2 in (v :: a, k, s3)
  | TString => let '(a, k, s3) := attr_loop n t s1 in (AStr x :: a, k, s3)
  | TStar =>
      let (v, s2) := parse_array parse_float to_i32 s1 in
      let '(a, k, s3) := attr_loop n t s2 in (v :: a, k, s3)
  | _ => attr_loop n t s1
  end.
Proof. reflexivity. Qed.

Lemma skip_good t x b r s : Tok b t x r -> good s b -> good (t_skip t s) r.
Proof.
  intros H G. unfold t_skip. destruct (tok_get _ _ _ _ _ H G) as (s' & -> & G').
  destruct t; exact G'.
Qed.

(** *** Arrays *)

Lemma seek_colon_good n s d r : good s (10 :: repeat 32 d ++ 97 :: 58 :: r) -> (3 < n)%nat -> good (seek_colon n s) r.
Proof.
  intros G Hn. destruct n as [|[|[|n]]]; try lia.
  cbn [seek_colon]. rewrite (good_tok _ _ G).
  destruct (tok_get _ _ _ _ _ (tok_eol _) G) as (s1 & -> & G1). cbn [beq].
  rewrite (good_tok _ _ G1).
  destruct (tok_get _ _ _ _ _ (tok_spaces d _ _ _ _ (tok_ident 97 [] 58 r eq_refl eq_refl eq_refl)) G1) as (s2 & -> & G2).
  cbn [beq]. cbn [Z.eqb Pos.eqb andb]. rewrite (good_tok _ _ G2).
  destruct (tok_get _ _ _ _ _ (tok_colon r) G2) as (s3 & -> & G3). cbn. exact G3.
Qed.

(** The texts of the elements, separated by a comma and a space. *)
Fixpoint listed (l : list bytes) : bytes :=
  match l with [] => [] | [x] => x | x :: r => x ++ [44; 32] ++ listed r end.

Lemma array_vals_step n s : array_vals parse_float (S n) s =
  if t_ok s
  then let '(t, x, s1) := get_token s in
       match t with
       | TEol | TComma => array_vals parse_float n s1
       | TClose => ([], false, s1)
       | TNumber => let '(l, p, s2) := array_vals parse_float n s1 in
                    (fst (parse_float x) :: l, has_point x || p, s2)
       | _ => ([], false, t_fail EOther s1)
       end
  else ([], false, s).
Proof. reflexivity. Qed.

Lemma number_len s : number s -> (0 < length s)%nat.
Proof. intros (c & l & -> & _). cbn. lia. Qed.

Lemma array_end d r n s : good s (10 :: indent d ++ 125 :: r) -> (1 < n)%nat ->
  exists s', array_vals parse_float n s = ([], false, s') /\ good s' r.
Proof.
  intros G Hn. destruct n as [|[|n]]; try lia. rewrite array_vals_step, (good_tok _ _ G).
  destruct (tok_get _ _ _ _ _ (tok_eol _) G) as (s1 & -> & G1).
  rewrite array_vals_step, (good_tok _ _ G1).
  destruct (tok_get _ _ _ _ _ (tok_indent d _ _ _ _ (tok_close r)) G1) as (s2 & -> & G2).
  eexists. split; [reflexivity|exact G2].
Qed.

Lemma array_good d r l : Forall number l -> l <> [] -> forall n s pre,
  (pre = [] \/ pre = [32]) ->
  good s (pre ++ listed l ++ 10 :: indent d ++ 125 :: r) ->
  (length (listed l) + 2 < n)%nat ->
  exists s', array_vals parse_float n s =
    (map (fun x => fst (parse_float x)) l, existsb has_point l, s') /\ good s' r.
Proof.
  induction 1 as [|x l Hx Hl IH]; intros N n s pre Hpre G Hn; [congruence|].
  pose proof (number_len _ Hx) as Lx. destruct n as [|n]; [lia|].
  rewrite array_vals_step, (good_tok _ _ G).
  destruct l as [|y l].
  - cbn [listed] in *.
    assert (T : Tok (pre ++ x ++ 10 :: indent d ++ 125 :: r) TNumber x (10 :: indent d ++ 125 :: r)).
    { destruct Hpre as [-> | ->]; [|cbn [app]; apply tok_space]; apply number_tok; auto. }
    destruct (tok_get _ _ _ _ _ T G) as (s1 & -> & G1).
    destruct (array_end d r n s1 G1 ltac:(lia)) as (s2 & -> & G2).
    eexists. split; [reflexivity|exact G2].
  - remember (y :: l) as l' eqn:El'. assert (E : listed (x :: l') = x ++ [44; 32] ++ listed l') by (subst; reflexivity).
    rewrite E in *. clear E.
    rewrite !app_length in Hn. cbn [length] in Hn.
    assert (T : Tok (pre ++ (x ++ [44; 32] ++ listed l') ++ 10 :: indent d ++ 125 :: r) TNumber x
                    (44 :: ([32] ++ listed l' ++ 10 :: indent d ++ 125 :: r))).
    { rewrite <- !app_assoc. destruct Hpre as [-> | ->]; [|cbn [app]; apply tok_space]; apply number_tok; auto. }
    destruct (tok_get _ _ _ _ _ T G) as (s1 & -> & G1).
    destruct n as [|n]; [lia|]. rewrite array_vals_step, (good_tok _ _ G1).
    destruct (tok_get _ _ _ _ _ (tok_comma _) G1) as (s2 & -> & G2).
    destruct (IH ltac:(subst; discriminate) n s2 [32] (or_intror eq_refl) G2 ltac:(lia)) as (s3 & -> & G3).
    eexists. split; [reflexivity|exact G3].
Qed.

(** What [replace1] makes of a printed slice. *)
Lemma replace_plain d s : Forall (fun c => c <> 91 /\ c <> 93 /\ c <> 32) s -> flat_map (replace1 d) s = s.
Proof.
  induction 1 as [|c s Hc _ IH]; [reflexivity|]. cbn [flat_map]. rewrite IH. unfold replace1. zb. reflexivity.
Qed.
Lemma number_no_space s : number s -> Forall (fun c => c <> 91 /\ c <> 93 /\ c <> 32) s.
Proof.
  intros (c & l & -> & Hc & Hl). constructor.
  - unfold digit_char in Hc. lia.
  - eapply Forall_impl; [|exact Hl]. cbn. unfold digit_char. intros; lia.
Qed.
Lemma replace_spaced d l : Forall number l -> flat_map (replace1 d) (spaced l) = listed l.
Proof.
  induction 1 as [|x l Hx Hl IH]; [reflexivity|]. destruct l as [|y l].
  - cbn [spaced listed]. apply replace_plain, number_no_space, Hx.
  - change (spaced (x :: y :: l)) with (x ++ [32] ++ spaced (y :: l)).
    change (listed (x :: y :: l)) with (x ++ [44; 32] ++ listed (y :: l)).
    rewrite !flat_map_app, IH, replace_plain by (apply number_no_space, Hx). reflexivity.
Qed.
Lemma replace_slice d l : Forall number l ->
  flat_map (replace1 d) (slice l) = [123; 10] ++ repeat 32 6 ++ [97; 58] ++ listed l ++ 10 :: indent d ++ [125].
Proof.
  intros H. unfold slice. rewrite !flat_map_app, replace_spaced by exact H. cbn.
  rewrite app_nil_r. reflexivity.
Qed.

Definition array_attr (l : list bytes) : attr :=
  let v := map (fun x => fst (parse_float x)) l in
  if existsb has_point l then AF64s v else AI32s (map to_i32 v).

Lemma parse_array_good d l r s : Forall number l -> counted l ->
  good s (show (Z.of_nat (length l)) ++ [32] ++ flat_map (replace1 d) (slice l) ++ r) ->
  exists s', parse_array parse_float to_i32 s = (array_attr l, s') /\ good s' r.
Proof.
  intros Hl (N & Hlen) G. rewrite replace_slice in G by exact Hl. cbn [app] in G.
  set (z := Z.of_nat (length l)) in *.
  assert (Hz : 0 < z) by (unfold z; destruct l; [congruence|cbn [length]; lia]).
  destruct (decimal_number _ _ (show_decimal z)) as (Nz & _).
  unfold parse_array.
  match type of G with good _ (?a ++ 32 :: ?b) => pose proof (number_tok a 32 b Nz eq_refl) as T end.
  destruct (tok_get _ _ _ _ _ T G) as (s1 & -> & G1).
  rewrite (parse_decimal 32 _ z (show_decimal z)) by lia.
  pose proof (skip_good _ _ _ _ _ (tok_space _ _ _ _ (tok_open _)) G1) as G2.
  set (s2 := t_skip TOpen s1) in *. cbn zeta.
  assert (G3 : good (seek_colon (room s2) s2) (listed l ++ 10 :: indent d ++ 125 :: r)).
  { apply (seek_colon_good _ _ 6).
    - match type of G2 with good _ ?x => match goal with |- good _ ?y => replace y with x; [exact G2|] end end.
      cbn [repeat app]. rewrite <- app_assoc. cbn [app]. rewrite <- app_assoc. reflexivity.
    - rewrite (good_room _ _ G2). cbn - [indent listed]. lia. }
  set (s3 := seek_colon (room s2) s2) in *.
  destruct (Z.ltb_spec 0 z); [|lia].
  destruct (array_good d r l Hl N (room s3) s3 [] (or_introl eq_refl) G3) as (s4 & -> & G4).
  { rewrite (good_room _ _ G3). rewrite !app_length. cbn [length]. rewrite app_length. cbn [length]. lia. }
  rewrite map_length, Z.eqb_refl. eexists. split; [reflexivity|exact G4].
Qed.

(** *** One attribute *)

(** [Val a v]: the text of [a] is one value [v] for the attribute loop. *)
Definition text_of (d : nat) (a : attr) : bytes :=
  if 0 <? attr_len a
  then [42] ++ show (attr_len a) ++ [32] ++ flat_map (replace1 d) (attr_text fmt32 fmt64 a)
  else attr_text fmt32 fmt64 a.

Definition steps (pre txt : bytes) (vs : list attr) : Prop :=
  forall prev e r n s, num_char e = false -> id_char e = false ->
  good s (pre ++ txt ++ e :: r) -> (length (pre ++ txt ++ e :: r) < n)%nat ->
  exists s' n' t, good s' (e :: r) /\ (length (e :: r) < n')%nat /\ ttype_eqb t TComma = false /\
    attr_loop n prev s = let '(a, k, s3) := attr_loop n' t s' in (vs ++ a, k, s3).

Lemma steps_number pre x v : pre = [32] -> number x ->
  (if has_point x then let (f, ok) := parse_float x in if ok then AF64 f else ANil
   else match parse_int 64 x with Some v => AI64 v | None => ANil end) = v -> v <> ANil ->
  steps pre x [v].
Proof.
  intros -> Hx Hv Nv prev e r n s He Hi G Hn. cbn [app] in G, Hn.
  destruct n as [|n]; [lia|]. rewrite attr_loop_step, (good_tok _ _ G). cbn [negb].
  destruct (tok_get _ _ _ _ _ (tok_space _ _ _ _ (number_tok x e r Hx He)) G) as (s1 & -> & G1).
  cbn [ttype_eqb andb]. exists s1, n, TNumber. split; [exact G1|].
  split; [pose proof (number_len _ Hx); cbn [length] in Hn |- *; rewrite app_length in Hn; cbn [length] in Hn; lia|].
  split; [reflexivity|]. subst v.
  destruct (has_point x).
  - destruct (parse_float x) as [f []]; [|congruence]. reflexivity.
  - destruct (parse_int 64 x); [reflexivity|congruence].
Qed.

Lemma steps_string pre x : pre = [32] -> Forall (fun c => c <> 34) x -> steps pre ([34] ++ x ++ [34]) [AStr x].
Proof.
  intros -> Hx prev e r n s He Hi G Hn. cbn [app] in G, Hn. rewrite <- app_assoc in G, Hn. cbn [app] in G, Hn.
  destruct n as [|n]; [lia|]. rewrite attr_loop_step, (good_tok _ _ G). cbn [negb].
  destruct (tok_get _ _ _ _ _ (tok_space _ _ _ _ (tok_string x (e :: r) Hx)) G) as (s1 & -> & G1).
  cbn [ttype_eqb andb]. exists s1, n, TString. split; [exact G1|].
  split; [cbn [length] in Hn |- *; rewrite app_length in Hn; cbn [length] in Hn; lia|].
  split; reflexivity.
Qed.

Lemma steps_empty pre : pre = [32] -> steps pre [91; 93] [].
Proof.
  intros -> prev e r n s He Hi G Hn. cbn [app] in G, Hn.
  destruct n as [|n]; [lia|]. rewrite attr_loop_step, (good_tok _ _ G). cbn [negb].
  destruct (tok_get _ _ _ _ _ (tok_space _ _ _ _ (tok_ident 91 [93] e r eq_refl eq_refl Hi)) G) as (s1 & -> & G1).
  cbn [ttype_eqb andb]. exists s1, n, TIdent. split; [exact G1|].
  split; [cbn [length] in Hn |- *; lia|].
  split; [reflexivity|]. destruct (attr_loop n TIdent s1) as [[a k] s3]. reflexivity.
Qed.

Lemma steps_array pre d l : pre = [32] -> Forall number l -> counted l ->
  steps pre ([42] ++ show (Z.of_nat (length l)) ++ [32] ++ flat_map (replace1 d) (slice l)) [array_attr l].
Proof.
  intros -> Hl Hc prev e r n s He Hi G Hn. cbn [app] in G, Hn.
  destruct n as [|n]; [lia|]. rewrite attr_loop_step, (good_tok _ _ G). cbn [negb].
  destruct (tok_get _ _ _ _ _ (tok_space _ _ _ _ (tok_star _)) G) as (s1 & -> & G1).
  cbn [ttype_eqb andb].
  destruct (parse_array_good d l (e :: r) s1 Hl Hc) as (s2 & -> & G2).
  { rewrite <- !app_assoc in G1. exact G1. }
  exists s2, n, TStar. split; [exact G2|].
  split; [|split; reflexivity].
  cbn [length] in Hn |- *. rewrite !app_length in Hn. cbn [length] in Hn. lia.
Qed.

Lemma ints_number l : Forall number (map show l).
Proof. apply Forall_forall. intros x Hx. apply in_map_iff in Hx as (v & <- & _). apply (decimal_number _ _ (show_decimal v)). Qed.

Lemma no_points l : Forall (fun x => ~ In 46 x) l -> existsb has_point l = false.
Proof. induction 1 as [|x l Hx _ IH]; [reflexivity|]. cbn [existsb]. rewrite (no_point _ Hx). exact IH. Qed.

Lemma array_ints l : Forall int32 l -> array_attr (map show l) = AI32s l.
Proof.
  intros H. unfold array_attr. rewrite no_points.
  - f_equal. rewrite !map_map. rewrite <- (map_id l) at 2. apply map_ext_in. intros v Hv.
    apply exact_ints; [apply show_decimal|]. rewrite Forall_forall in H. auto.
  - apply Forall_forall. intros x Hx. apply in_map_iff in Hx as (v & <- & _). apply (decimal_number _ _ (show_decimal v)).
Qed.
Lemma array_decimals (fm : Z -> bytes) l vs : Forall2 (fun b v => decimal (fm b) v) l vs -> Forall int32 vs ->
  array_attr (map fm l) = AI32s vs.
Proof.
  intros H Hv. unfold array_attr. rewrite no_points.
  - f_equal. rewrite !map_map. revert Hv. induction H as [|b v l vs Hb _ IH]; intros Hv; [reflexivity|].
    inversion Hv; subst. cbn [map]. rewrite IH by assumption. rewrite (exact_ints _ _ Hb) by assumption. reflexivity.
  - clear Hv. induction H as [|b v l vs Hb _ IH]; constructor; auto. apply (decimal_number _ _ Hb).
Qed.
Lemma array_floats (fm : Z -> bytes) l xs : Exists (fun b => pointed (fm b)) l ->
  Forall2 (fun b x => fst (parse_float (fm b)) = x) l xs -> array_attr (map fm l) = AF64s xs.
Proof.
  intros He H. unfold array_attr. assert (E : existsb has_point (map fm l) = true).
  { apply Exists_exists in He as (b & Hb & Hp). apply existsb_exists. exists (fm b). split; [apply in_map, Hb|apply point_has, Hp]. }
  rewrite E. f_equal. rewrite map_map. induction H as [|b x l xs Hb H IH]; [reflexivity|]. cbn [map]. rewrite Hb.
  f_equal. clear - H. induction H as [|b' x' l xs Hb _ IH]; [reflexivity|]. cbn [map]. rewrite Hb, IH. reflexivity.
Qed.

Lemma counted_map {A B} (f : A -> B) l : counted l -> counted (map f l).
Proof. intros (N & H). split; [destruct l; [congruence|discriminate]|]. rewrite map_length. exact H. Qed.
Lemma counted_pos {A} (l : list A) : counted l -> (0 <? Z.of_nat (length l)) = true.
Proof. intros (N & _). destruct l; [congruence|]. reflexivity. Qed.

Lemma steps_arr d a (l : list Z) txts v : attr_len a = Z.of_nat (length l) -> attr_text fmt32 fmt64 a = slice txts ->
  length txts = length l -> counted l -> Forall number txts -> array_attr txts = v -> steps [32] (text_of d a) [v].
Proof.
  intros E1 E2 E3 Hc Hn <-. unfold text_of. rewrite E1, E2, (counted_pos _ Hc), <- E3.
  apply steps_array; auto. destruct Hc as (N & H). split; [|rewrite E3; exact H].
  destruct txts; [|discriminate]. destruct l; [congruence|discriminate].
Qed.

Lemma steps_int d a v : attr_len a = 0 -> attr_text fmt32 fmt64 a = show v -> int64 v -> steps [32] (text_of d a) [AI64 v].
Proof.
  intros E1 E2 Hv. unfold text_of. rewrite E1, E2. cbn [Z.ltb Z.compare].
  destruct (decimal_number _ _ (show_decimal v)) as (Hn & Hp).
  apply steps_number; auto; [|discriminate]. rewrite (no_point _ Hp).
  unfold int64 in Hv. rewrite (parse_decimal 64 _ v (show_decimal v)) by lia. reflexivity.
Qed.

Lemma steps_float d a (fm : Z -> bytes) b x : attr_len a = 0 -> attr_text fmt32 fmt64 a = fm b -> number (fm b) -> pointed (fm b) ->
  parse_float (fm b) = (x, true) -> steps [32] (text_of d a) [AF64 x].
Proof.
  intros E1 E2 Hn Hp Hx. unfold text_of. rewrite E1, E2. cbn [Z.ltb Z.compare].
  apply steps_number; auto; [|discriminate]. rewrite (point_has _ Hp), Hx. reflexivity.
Qed.
Lemma steps_float_int d a (fm : Z -> bytes) b v : attr_len a = 0 -> attr_text fmt32 fmt64 a = fm b -> decimal (fm b) v -> int64 v ->
  steps [32] (text_of d a) [AI64 v].
Proof.
  intros E1 E2 Hd Hv. unfold text_of. rewrite E1, E2. cbn [Z.ltb Z.compare].
  destruct (decimal_number _ _ Hd) as (Hn & Hp).
  apply steps_number; auto; [|discriminate]. rewrite (no_point _ Hp).
  unfold int64 in Hv. rewrite (parse_decimal 64 _ v Hd) by lia. reflexivity.
Qed.

Lemma numbers_map (fm : Z -> bytes) l : Forall (fun b => number (fm b)) l -> Forall number (map fm l).
Proof. induction 1; constructor; auto. Qed.
Lemma decimals_map (fm : Z -> bytes) l vs : Forall2 (fun b v => decimal (fm b) v) l vs -> Forall number (map fm l).
Proof. induction 1 as [|b v l vs Hb _ IH]; constructor; auto. apply (decimal_number _ _ Hb). Qed.

Lemma reads_steps d a v : reads_as a v -> steps [32] (text_of d a) [v].
Proof.
  intros H. destruct H as [v H|v H|v H|v H|v H|v H|b x H1 H2 H3|b x H1 H2 H3|b v H1 H2|b v H1 H2|s H|x y H1 H2| |l H1 H2|l H1 H2|l H1 H2|l H1 H2
    |l xs H1 H2 H3 H4|l xs H1 H2 H3 H4|l vs H1 H2 H3|l vs H1 H2 H3];
  try (apply steps_int; auto; reflexivity);
  try (eapply steps_float; eauto; reflexivity);
  try (eapply steps_float_int; eauto; reflexivity).
  - unfold text_of. cbn [attr_len Z.ltb Z.compare attr_text]. rewrite (split01_plain _ H). unfold go_quote.
    rewrite (plain_escape _ H). apply steps_string; auto using plain_no_quote.
  - unfold text_of. cbn [attr_len Z.ltb Z.compare attr_text]. rewrite (split01_class _ _ H1). unfold go_quote.
    assert (P : Forall plain (y ++ [58; 58] ++ x)).
    { apply Forall_app. split; [exact H2|]. apply Forall_app. split; [|exact H1]. repeat constructor; lia. }
    rewrite (plain_escape _ P). apply steps_string; auto using plain_no_quote.
  - unfold text_of. cbn [attr_len Z.ltb Z.compare attr_text length Z.of_nat].
    apply (steps_string [32] [91; 93]); auto. repeat constructor; lia.
  - eapply (steps_arr d _ l); eauto using map_length, ints_number, array_ints; try reflexivity. 
  - eapply (steps_arr d _ l); eauto using map_length, ints_number, array_ints; try reflexivity. 
  - eapply (steps_arr d _ l); eauto using map_length, ints_number, array_ints; try reflexivity. 
  - eapply (steps_arr d _ l); eauto using map_length, ints_number, array_ints; try reflexivity. 
  - eapply (steps_arr d _ l); eauto using map_length, numbers_map, array_floats; reflexivity. 
  - eapply (steps_arr d _ l); eauto using map_length, numbers_map, array_floats; reflexivity. 
  - eapply (steps_arr d _ l); eauto using map_length, decimals_map, array_decimals; reflexivity. 
  - eapply (steps_arr d _ l); eauto using map_length, decimals_map, array_decimals; reflexivity. 
Qed.

Lemma empty_steps d a : empty_array a -> steps [32] (text_of d a) [].
Proof. intros H. repeat (destruct H as [-> | H]; [apply steps_empty; reflexivity|]). subst. apply steps_empty. reflexivity. Qed.

(** *** The attributes of a node *)

Lemma dump_attrs_cons d first a l : dump_attrs d true first (a :: l) =
  (if first then [32] else [44; 32]) ++ text_of d a ++ dump_attrs d true false l.
Proof. cbn [FbxText.dump_attrs negb andb]. unfold text_of. rewrite <- app_assoc. reflexivity. Qed.

(** The character after an attribute ends numbers and identifiers. *)
Lemma dump_attrs_head d l tail e r : num_char e = false -> id_char e = false -> tail = e :: r ->
  exists e' r', dump_attrs d true false l ++ tail = e' :: r' /\ num_char e' = false /\ id_char e' = false.
Proof.
  intros He Hi ->. destruct l as [|a l].
  - exists e, r. auto.
  - rewrite dump_attrs_cons. cbn [app]. eexists _, _. split; [reflexivity|split; reflexivity].
Qed.

Lemma attrs_run d al vl : attrs_as al vl -> forall first e r n s prev,
  num_char e = false -> id_char e = false ->
  good s (dump_attrs d true first al ++ e :: r) -> (length (dump_attrs d true first al ++ e :: r) < n)%nat ->
  (first = true -> ttype_eqb prev TComma = false) ->
  (first = false -> ttype_eqb prev TComma = false) ->
  exists s' n' t, good s' (e :: r) /\ (length (e :: r) < n')%nat /\ ttype_eqb t TComma = false /\
    attr_loop n prev s = let '(a, k, s3) := attr_loop n' t s' in (vl ++ a, k, s3).
Proof.
  assert (Main : forall a vs al vl, steps [32] (text_of d a) vs ->
    (forall e r n s prev, num_char e = false -> id_char e = false ->
      good s (dump_attrs d true false al ++ e :: r) -> (length (dump_attrs d true false al ++ e :: r) < n)%nat ->
      ttype_eqb prev TComma = false ->
      exists s' n' t, good s' (e :: r) /\ (length (e :: r) < n')%nat /\ ttype_eqb t TComma = false /\
        attr_loop n prev s = let '(a, k, s3) := attr_loop n' t s' in (vl ++ a, k, s3)) ->
    forall first e r n s prev, num_char e = false -> id_char e = false ->
    good s (dump_attrs d true first (a :: al) ++ e :: r) -> (length (dump_attrs d true first (a :: al) ++ e :: r) < n)%nat ->
    ttype_eqb prev TComma = false ->
    exists s' n' t, good s' (e :: r) /\ (length (e :: r) < n')%nat /\ ttype_eqb t TComma = false /\
      attr_loop n prev s = let '(a, k, s3) := attr_loop n' t s' in ((vs ++ vl) ++ a, k, s3)).
  { clear. intros a vs al vl HS IH first e r n s prev He Hi G Hn Hp.
    rewrite dump_attrs_cons in G, Hn. rewrite <- !app_assoc in G, Hn.
    destruct (dump_attrs_head d al (e :: r) e r He Hi eq_refl) as (e' & r' & E' & He' & Hi').
    rewrite E' in G, Hn.
    assert (Go : forall n1 s1 prev1, good s1 ([32] ++ text_of d a ++ e' :: r') ->
      (length ([32%Z] ++ text_of d a ++ e' :: r') < n1)%nat ->
      exists s' n' t, good s' (e :: r) /\ (length (e :: r) < n')%nat /\ ttype_eqb t TComma = false /\
        attr_loop n1 prev1 s1 = let '(a, k, s3) := attr_loop n' t s' in ((vs ++ vl) ++ a, k, s3)).
    { intros n1 s1 prev1 G1 Hn1.
      destruct (HS prev1 e' r' n1 s1 He' Hi' G1 Hn1) as (s2 & n2 & t2 & G2 & Hn2 & Ht2 & E2).
      rewrite <- E' in G2, Hn2.
      destruct (IH e r n2 s2 t2 He Hi G2 Hn2 Ht2) as (s3 & n3 & t3 & G3 & Hn3 & Ht3 & E3).
      exists s3, n3, t3. repeat (split; [assumption|]). rewrite E2, E3.
      destruct (attr_loop n3 t3 s3) as [[a' k'] s']. rewrite app_assoc. reflexivity. }
    destruct first.
    - apply Go; assumption.
    - cbn [app] in G, Hn. destruct n as [|n]; [cbn in Hn; lia|].
      destruct (tok_get _ _ _ _ _ (tok_comma _) G) as (s1 & E1 & G1).
      rewrite attr_loop_step, (good_tok _ _ G), E1. cbn [negb ttype_eqb andb].
      apply Go; [exact G1|]. cbn [length app] in Hn |- *. lia. }
  induction 1 as [|a v al vl Ha _ IH|a al vl Ha _ IH]; intros first e r n s prev He Hi G Hn Hp1 Hp2.
  - cbn [FbxText.dump_attrs app] in G, Hn. exists s, n, prev.
    assert (Hp : ttype_eqb prev TComma = false) by (destruct first; auto).
    repeat (split; [assumption|]). cbn [app]. destruct (attr_loop n prev s) as [[a k] s3]. reflexivity.
  - eapply (Main a [v] al vl); eauto using reads_steps; try (destruct first; auto).
  - eapply (Main a [] al vl); eauto using empty_steps; try (destruct first; auto).
Qed.

(** *** Nodes *)

Lemma ident_tok nm r : ident nm -> Tok (nm ++ 58 :: r) TIdent nm (58 :: r).
Proof.
  intros (c & l & -> & Hc & Hl). cbn [app]. apply tok_ident; auto.
  - unfold letter in Hc. unfold id_start. zb. all: reflexivity.
  - apply forallb_forall. intros x Hx. rewrite Forall_forall in Hl. specialize (Hl _ Hx).
    unfold letter, digit_char in Hl. unfold id_char, id_start, is_digit. zb. all: reflexivity.
Qed.

Definition Run (b : bytes) (vs : list node) : Prop :=
  forall n s r, good s (b ++ r) -> (length (b ++ r) < n)%nat ->
  exists s' n', good s' r /\ (length r < n')%nat /\
    node_list n s = let (l, s4) := node_list n' s' in (vs ++ l, s4).

Lemma run_nil : Run [] [].
Proof. intros n s r G Hn. exists s, n. repeat (split; [assumption|]). destruct (node_list n s). reflexivity. Qed.
Lemma run_app b1 v1 b2 v2 : Run b1 v1 -> Run b2 v2 -> Run (b1 ++ b2) (v1 ++ v2).
Proof.
  intros H1 H2 n s r G Hn. rewrite <- app_assoc in G, Hn.
  destruct (H1 n s (b2 ++ r) G Hn) as (s1 & n1 & G1 & L1 & ->).
  destruct (H2 n1 s1 r G1 L1) as (s2 & n2 & G2 & L2 & ->).
  exists s2, n2. repeat (split; [assumption|]). destruct (node_list n2 s2). rewrite app_assoc. reflexivity.
Qed.

(** A block of children, up to and including its closing brace. *)
Lemma block_run b vs d r n s : Run b vs -> good s (10 :: b ++ indent d ++ 125 :: r) ->
  (length (10%Z :: b ++ indent d ++ 125%Z :: r) < n)%nat ->
  exists s', node_list n s = (vs, s') /\ good s' r.
Proof.
  intros H G Hn. destruct n as [|n]; [lia|].
  destruct (tok_get _ _ _ _ _ (tok_eol _) G) as (s1 & E1 & G1).
  rewrite node_list_step, (good_tok _ _ G), E1. cbn [negb].
  destruct (H n s1 _ G1) as (s2 & n2 & G2 & L2 & ->); [cbn [length] in Hn; lia|].
  destruct n2 as [|n2]; [lia|].
  destruct (tok_get _ _ _ _ _ (tok_indent d _ _ _ _ (tok_close r)) G2) as (s3 & E3 & G3).
  rewrite node_list_step, (good_tok _ _ G2), E3. cbn [negb]. rewrite app_nil_r. eauto.
Qed.

Lemma dump_run t : forall t' d, tree_as t t' -> Run (dump d t) [t'].
Proof.
  induction t as [nm al ks IH] using node_induct. intros t' d H.
  inversion H as [nm' al' vl ks' ks2 Hnm Hal Hks]; subst. clear H.
  assert (HK : Run (flat_map (dump (S d)) ks) ks2).
  { clear - IH Hks. revert ks2 Hks. induction IH as [|k ks Hk _ IHk]; intros ks2 Hks; inversion Hks; subst.
    - apply run_nil.
    - cbn [flat_map]. change (t' :: l') with ([t'] ++ l'). apply run_app; auto. }
  clear IH Hks.
  intros n s r G Hn.
  (* the text of the node, after its attributes *)
  set (tail := match ks, al with
    | [], _ :: _ => [10]
    | _, _ => [32; 123; 10] ++ flat_map (dump (S d)) ks ++ indent d ++ [125; 10] end) in *.
  assert (ED : dump d (Node nm al ks) = indent d ++ nm ++ [58] ++ dump_attrs d true true al ++ tail) by reflexivity.
  rewrite ED in G, Hn. rewrite <- !app_assoc in G, Hn. cbn [app] in G, Hn. clear ED.
  destruct n as [|n]; [lia|].
  destruct (tok_get _ _ _ _ _ (tok_indent d _ _ _ _ (ident_tok nm _ Hnm)) G) as (s1 & E1 & G1).
  rewrite node_list_step, (good_tok _ _ G), E1. cbn [negb].
  pose proof (skip_good _ _ _ _ _ (tok_colon _) G1) as G2.
  set (s2 := t_skip TColon s1) in *.
  assert (Hlen : (length (dump_attrs d true true al ++ tail ++ r) < n)%nat).
  { rewrite !app_length in Hn. cbn [length] in Hn. rewrite !app_length in Hn. rewrite !app_length. lia. }
  assert (Htail : exists e x, tail = e :: x /\ num_char e = false /\ id_char e = false).
  { unfold tail. destruct ks, al; cbn [app]; (eexists _, _; split; [reflexivity|split; reflexivity]). }
  destruct Htail as (e & x & Etail & He & Hi).
  rewrite Etail in G2, Hlen. cbn [app] in G2, Hlen.
  destruct (attrs_run d al vl Hal true e (x ++ r) n s2 TColon He Hi G2 Hlen (fun _ => eq_refl) (fun _ => eq_refl))
    as (s3 & n3 & t3 & G3 & L3 & Ht3 & E3).
  rewrite E3. clear E3.
  change (e :: x ++ r) with ((e :: x) ++ r) in G3, L3. rewrite <- Etail in G3, L3. clear G2 Hlen He Hi Etail e x.
  destruct n3 as [|n3]; [lia|]. rewrite attr_loop_step, (good_tok _ _ G3). cbn [negb].
  assert (Hcase : tail = [10] /\ ks2 = [] \/ tail = [32; 123; 10] ++ flat_map (dump (S d)) ks ++ indent d ++ [125; 10]).
  { unfold tail. destruct ks as [|k ks]; [destruct al; [right; reflexivity|left]|right; reflexivity].
    split; [reflexivity|]. specialize (HK 3%nat (mkT [] [] None) []). cbn in HK.
    destruct HK as (sx & nx & Gx & _ & Ex); [left; reflexivity|lia|].
    destruct ks2; [reflexivity|]. destruct (node_list nx sx). discriminate. }
  assert (Hn' : (length r < n)%nat).
  { rewrite !app_length in Hn. cbn [length] in Hn. rewrite !app_length in Hn. lia. }
  destruct Hcase as [[Et ->] | Et]; rewrite Et in *; clear tail Et.
  - cbn [app] in G3.
    destruct (tok_get _ _ _ _ _ (tok_eol r) G3) as (s4 & -> & G4). rewrite Ht3. cbn [ttype_eqb negb andb].
    cbv beta iota zeta. rewrite app_nil_r, (good_ok _ _ G4). exists s4, n. split; [exact G4|]. split; [exact Hn'|].
    destruct (node_list n s4). reflexivity.
  - rewrite <- !app_assoc in G3, L3. cbn [app] in G3, L3.
    destruct (tok_get _ _ _ _ _ (tok_space _ _ _ _ (tok_open _)) G3) as (s4 & -> & G4). cbn [ttype_eqb andb].
    destruct (block_run _ _ d (10 :: r) n3 s4 HK G4) as (s5 & -> & G5).
    { cbn [length] in L3 |- *. lia. }
    cbv beta iota zeta. rewrite app_nil_r, (good_ok _ _ G5).
    assert (Hn5 : (S (length r) < n)%nat).
    { repeat (progress (rewrite ?app_length in Hn; cbn [length] in Hn)). lia. }
    destruct n as [|n]; [lia|].
    destruct (tok_get _ _ _ _ _ (tok_eol r) G5) as (s6 & E6 & G6).
    rewrite node_list_step, (good_tok _ _ G5), E6. cbn [negb].
    exists s6, n. split; [exact G6|]. split; [lia|]. destruct (node_list n s6). reflexivity.
Qed.

Lemma dumps_run l l' : trees_as l l' -> Run (flat_map (dump 0) l) l'.
Proof.
  revert l'. induction l as [|t l IH]; intros l' H; inversion H; subst.
  - apply run_nil.
  - cbn [flat_map]. change (t' :: l'0) with ([t'] ++ l'0). apply run_app; auto using dump_run.
Qed.
End Reading.
