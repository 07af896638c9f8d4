(** FBX text files as a whole: reading back what [Write] wrote, and termination. *)
From Coq Require Import List ZArith Bool Lia.
From Verif Require Import Model.Codec Model.Fbx Model.FbxText Spec.FbxTextSpec Proofs.FbxLayout Proofs.FbxTotal
  Proofs.FbxTextProofs.
Import ListNotations.
Local Open Scope Z_scope.
Local Open Scope list_scope.

(** ** The first comment, read from the 21 bytes handed over *)

Lemma take_buf f l : forall n c e r b i, (length l < n)%nat -> (length b <= length l)%nat ->
  l ++ e :: r = c :: b ++ i -> forallb f l = true -> f e = false ->
  take_while n f c (mkT b i None) = (l, e, mkT [] r None).
Proof.
  induction l as [|a l IH]; intros n c e r b i Hn Hb E Hf He; (destruct n; [cbn in Hn; lia|]); cbn [app] in E;
    injection E as <- E.
  - destruct b; [|cbn in Hb; lia]. cbn [app] in E. subst. cbn [take_while]. rewrite He. reflexivity.
  - cbn [forallb] in Hf. apply andb_prop in Hf. destruct Hf as [Ha Hl].
    cbn [take_while t_ok t_err]. rewrite Ha. cbn [andb]. destruct b as [|c' b].
    + cbn [app] in E. rewrite <- E. destruct (l ++ e :: r) as [|c' x'] eqn:E'; [destruct l; discriminate|].
      cbn [t_read t_buf t_err t_in].
      rewrite (take_good f l n c' e r x'); auto. cbn [length] in Hn. lia.
    + cbn [t_read t_buf t_err t_in app] in *. cbn [length] in *.
      rewrite (IH n c' e r b i); auto; lia.
Qed.

Lemma first_comment l r : (20 <= length l)%nat -> ~ In 10 l ->
  let data := 59 :: l ++ 10 :: r in
  get_token (mkT (firstn 21 data) (skipn 21 data) None) = (TEol, [], mkT [] r None).
Proof.
  intros Hlen Hl data. unfold get_token.
  assert (E : data = firstn 21 data ++ skipn 21 data) by (symmetry; apply firstn_skipn).
  destruct (firstn 21 data) as [|c b] eqn:Eb; [discriminate|].
  assert (c = 59) by (cbn in Eb; congruence). subst c.
  assert (Lb : length (59 :: b) = 21%nat).
  { rewrite <- Eb, firstn_length. unfold data. cbn [length]. rewrite app_length. cbn [length]. lia. }
  unfold room. cbn [t_buf length Nat.add]. cbn [token t_ok t_err negb t_read t_buf t_in].
  rewrite Z.eqb_refl.
  rewrite (take_buf _ (59 :: l) _ 59 10 r b (skipn 21 data)).
  - reflexivity.
  - assert (length data = length (59%Z :: b) + length (skipn 21 data))%nat by (rewrite E at 1; apply app_length).
    unfold data in H at 1. cbn [length] in H. rewrite app_length in H. cbn [length] in H.
    unfold room. cbn [t_buf t_in length]. lia.
  - cbn [length] in Lb |- *. lia.
  - unfold data in E at 1. cbn [app] in E. injection E as E. cbn [app]. rewrite E. reflexivity.
  - apply forallb_forall. intros c [<-|Hc]; [reflexivity|]. apply negb_true_iff, Z.eqb_neq. intros ->. auto.
  - reflexivity.
Qed.

Section Reading.
Variable parse_float : bytes -> Z * bool.
Variable to_i32 : Z -> Z.
Variable fmt32 fmt64 : Z -> bytes.

Lemma filter_saved l : filter (fun n => negb (beq (node_name n) file_id)) l = saved l.
Proof.
  unfold saved. apply filter_ext. intros n. unfold file_id.
  assert (B : forall a b, beq a b = true <-> a = b).
  { induction a as [|x a IH]; intros [|y b]; cbn [beq]; try (split; [discriminate|discriminate]); [tauto|].
    rewrite andb_true_iff, IH, Z.eqb_eq. split; [intros [-> ->]; reflexivity|injection 1; auto]. }
  destruct (list_eq_dec _ _ _) as [E|N].
  - apply B in E. rewrite E. reflexivity.
  - destruct (beq (node_name n) [70; 105; 108; 101; 73; 100]) eqn:E; [apply B in E; contradiction|reflexivity].
Qed.

Lemma write_read root kids : int_floats parse_float to_i32 ->
  trees_as parse_float fmt32 fmt64 (saved (node_kids root)) kids ->
  parse_text parse_float to_i32 (write_text fmt32 fmt64 root) = FTree (Node root_name [] kids).
Proof.
  intros HI H. unfold write_text. rewrite filter_saved.
  pose proof (dumps_run parse_float to_i32 fmt32 fmt64 HI _ _ H) as R.
  set (body := flat_map (dump fmt32 fmt64 true 0) (saved (node_kids root))) in *. clearbody body.
  unfold parse_text. set (data := header1 ++ header2 ++ header3 ++ [10] ++ body).
  assert (Ed : data = 59 :: tl (removelast header1) ++ 10 :: header2 ++ header3 ++ [10] ++ body) by reflexivity.
  assert (Hlen : (length body + 124 <= length data)%nat).
  { unfold data. rewrite !app_length. cbn. lia. }
  destruct (2 * length data)%nat as [|[|[|[|m]]]] eqn:Em; try lia.
  rewrite Ed at 1 2. rewrite node_list_step. cbn [t_ok t_err negb].
  rewrite first_comment; [|cbn; lia|cbn; intuition discriminate].
  rewrite node_list_step. cbn [t_ok t_err negb].
  assert (T2 : Tok (header2 ++ header3 ++ [10] ++ body) TEol [] (header3 ++ [10] ++ body)).
  { apply (tok_comment (tl (removelast header2)) (header3 ++ [10] ++ body)). cbn. intuition discriminate. }
  destruct (tok_get _ _ _ _ _ T2 (good_clean _)) as (s2 & -> & G2).
  rewrite node_list_step, (good_tok _ _ G2). cbn [negb].
  assert (T3 : Tok (header3 ++ [10] ++ body) TEol [] ([10] ++ body)).
  { apply (tok_comment (tl (removelast header3)) ([10] ++ body)). cbn. intuition discriminate. }
  destruct (tok_get _ _ _ _ _ T3 G2) as (s3 & -> & G3).
  rewrite node_list_step, (good_tok _ _ G3). cbn [negb].
  destruct (tok_get _ _ _ _ _ (tok_eol body) G3) as (s4 & -> & G4).
  destruct (R (S (S m)) s4 []) as (s5 & n5 & G5 & L5 & ->).
  { rewrite app_nil_r. exact G4. }
  { rewrite app_nil_r. lia. }
  destruct n5 as [|n5]; [cbn in L5; lia|]. rewrite node_list_step, (good_tok _ _ G5). cbn [negb].
  destruct (tok_end _ G5) as (s6 & -> & E6).
  assert (E7 : node_list parse_float to_i32 n5 s6 = ([], s6)).
  { destruct n5 as [|n5]; [destruct s6 as [b6 i6 e6]; cbn in E6; subst; reflexivity|]. rewrite node_list_step. unfold t_ok. rewrite E6. reflexivity. }
  rewrite E7, E6, app_nil_r. reflexivity.
Qed.

Lemma write_any seek inflate root :
  parse_any parse_float to_i32 seek inflate (write_text fmt32 fmt64 root) =
  parse_text parse_float to_i32 (write_text fmt32 fmt64 root).
Proof.
  assert (E : parse_fbx seek inflate (write_text fmt32 fmt64 root) = FText).
  { unfold write_text. generalize (flat_map (dump fmt32 fmt64 true 0) (filter (fun n => negb (beq (node_name n) file_id)) (node_kids root))).
    intros body. unfold parse_fbx.
    assert (G : get 21 (mkR (header1 ++ header2 ++ header3 ++ [10] ++ body) 0 None) =
                (firstn 21 header1, mkR (skipn 21 header1 ++ header2 ++ header3 ++ [10] ++ body) 21 None)).
    { unfold get. cbn [r_err r_rest r_pos].
      assert (L : (21 <=? blen (header1 ++ header2 ++ header3 ++ [10] ++ body)) = true).
      { apply Z.leb_le. unfold blen. rewrite app_length. cbn [length header1]. lia. }
      rewrite L. reflexivity. }
    rewrite G. reflexivity. }
  unfold parse_any. rewrite E. reflexivity.
Qed.

Lemma exact_reads a : exact_attr parse_float fmt64 a -> reads_as parse_float fmt32 fmt64 a a.
Proof.
  destruct a; cbn [exact_attr]; try contradiction.
  - apply ra_i64.
  - intros (H1 & H2 & H3). apply ra_f64; auto.
  - apply ra_str.
  - intros (H1 & H2). apply ra_i32s; auto.
  - intros (H1 & H2 & H3). apply ra_f64s; auto.
    + eapply Forall_impl; [|exact H3]. intros b (H & _); exact H.
    + clear - H3. induction H3 as [|b l (_ & Hb) _ IH]; constructor; auto.
Qed.
Lemma exact_as t : exact_tree parse_float fmt64 t -> tree_as parse_float fmt32 fmt64 t t.
Proof.
  induction t as [nm al ks IH] using node_induct. intros H. inversion H as [nm' al' ks' Hn Ha Hk]; subst.
  constructor; [exact Hn| |].
  - clear - Ha. induction Ha; constructor; auto using exact_reads.
  - clear - IH Hk. induction Hk; [constructor|]. inversion IH; subst. constructor; auto.
Qed.
Lemma exact_all l : Forall (exact_tree parse_float fmt64) l -> trees_as parse_float fmt32 fmt64 l l.
Proof. induction 1; constructor; auto using exact_as. Qed.

(** ** Termination *)

Definition size (s : tst) : nat := length (t_buf s) + length (t_in s).
Definition not_fuel (s : tst) : Prop := t_err s <> Some EFuel.

Lemma t_read_size s c s' : t_read s = (c, s') ->
  (size s' <= size s)%nat /\ (not_fuel s -> not_fuel s') /\ (t_ok s' = true -> t_ok s = true /\ (size s' < size s)%nat).
Proof.
  destruct s as [[|b bf] i e]; unfold t_read, size, not_fuel, t_ok; cbn [t_buf t_in t_err length].
  - destruct e as [e|].
    + injection 1 as <- <-. cbn. repeat split; auto; discriminate.
    + destruct i as [|x i]; injection 1 as <- <-; cbn; repeat split; auto; discriminate || lia.
  - injection 1 as <- <-. cbn. repeat split; auto; destruct e; try discriminate; lia.
Qed.

Lemma take_size f n : forall c s l e s', take_while n f c s = (l, e, s') -> (size s + 1 < n)%nat \/ (t_ok s = false /\ 0 < n)%nat ->
  (size s' <= size s)%nat /\ (not_fuel s -> not_fuel s') /\ (t_ok s' = true -> t_ok s = true).
Proof.
  induction n as [|n IH]; intros c s l e s' E Hn; [lia|]. cbn [take_while] in E.
  destruct (f c && t_ok s) eqn:Ef.
  - apply andb_prop in Ef as [_ Ok].
    destruct (t_read s) as [c' s1] eqn:Er. destruct (take_while n f c' s1) as [[l2 e2] s2] eqn:E2.
    injection E as <- <- <-. apply t_read_size in Er as (R1 & R2 & R3).
    destruct Hn as [Hn|[Hn _]]; [|congruence].
    assert (P : (size s1 + 1 < n)%nat \/ (t_ok s1 = false /\ 0 < n)%nat).
    { destruct (t_ok s1) eqn:O1; [left|right; split; [reflexivity|lia]]. destruct (R3 eq_refl). lia. }
    destruct (IH _ _ _ _ _ E2 P) as (A & B & C). split; [lia|]. split; auto.
  - injection E as <- <- <-. auto.
Qed.

Lemma unread_size c s : not_fuel s -> not_fuel (unread c s) /\ t_ok (unread c s) = t_ok s /\
  (t_ok s = true -> size (unread c s) = S (size s)) /\ (t_ok s = false -> unread c s = s).
Proof.
  intros H. unfold unread. destruct (t_ok s) eqn:E; [|repeat split; auto; discriminate].
  split; [exact H|]. split; [unfold t_ok in *; cbn; destruct (t_err s); [discriminate|reflexivity]|].
  split; [|discriminate]. intros _. unfold size. cbn. rewrite app_length. cbn. lia.
Qed.

Lemma room_size s : room s = S (S (size s)). Proof. reflexivity. Qed.

(** What holds after a token: no more input than before, and less of it unless an error is pending. *)
Definition less (s s' : tst) : Prop :=
  (size s' <= size s)%nat /\ (not_fuel s -> not_fuel s') /\ (t_ok s' = true -> t_ok s = true /\ (size s' < size s)%nat).

Lemma less_le s s1 s' : less s s1 -> (size s' <= size s1)%nat -> (not_fuel s1 -> not_fuel s') ->
  (t_ok s' = true -> t_ok s1 = true) -> less s s'.
Proof. intros (A & B & C) H1 H2 H3. split; [lia|]. split; auto. intros O. destruct (C (H3 O)). split; auto. lia. Qed.

Lemma token_less n : forall s t x s', token n s = (t, x, s') -> (size s < n)%nat -> t_ok s = true -> not_fuel s -> less s s'.
Proof.
  induction n as [|n IH]; intros s t x s' E Hn Ok NF; [lia|]. cbn [token] in E. rewrite Ok in E. cbn [negb] in E.
  destruct (t_read s) as [c s1] eqn:Er. apply t_read_size in Er. change (less s s1) in Er.
  assert (NF1 : not_fuel s1) by (apply Er; exact NF).
  destruct (c =? 59).
  { destruct (take_while _ _ _ s1) as [[l e] s2] eqn:E2. injection E as <- <- <-.
    apply take_size in E2 as (A & B & C); [|left; rewrite room_size; lia]. eapply less_le; eauto. }
  destruct (c =? 123); [injection E as <- <- <-; exact Er|].
  destruct (c =? 125); [injection E as <- <- <-; exact Er|].
  destruct (c =? 44); [injection E as <- <- <-; exact Er|].
  destruct (c =? 58); [injection E as <- <- <-; exact Er|].
  destruct (c =? 42); [injection E as <- <- <-; exact Er|].
  destruct (num_start c).
  { destruct (t_read s1) as [c2 s2] eqn:Er2. destruct (take_while _ _ _ s2) as [[l e] s3] eqn:E3. injection E as <- <- <-.
    apply t_read_size in Er2 as (A & B & C).
    apply take_size in E3 as (A3 & B3 & C3); [|left; rewrite room_size; lia].
    destruct (unread_size e s3) as (U1 & U2 & U3 & U4); [auto|].
    destruct (t_ok s3) eqn:O3.
    - specialize (C3 eq_refl). destruct (C C3) as (O1 & L1). destruct Er as (A0 & B0 & C0). destruct (C0 O1).
      split; [rewrite U3; lia|]. split; [auto|]. intros _. split; [exact Ok|]. rewrite U3; lia.
    - rewrite U4 by reflexivity. eapply less_le; [exact Er|lia|auto|]. congruence. }
  destruct (c =? 10); [injection E as <- <- <-; exact Er|].
  destruct (c =? 34).
  { destruct (t_read s1) as [c2 s2] eqn:Er2. destruct (take_while _ _ _ s2) as [[l e] s3] eqn:E3. injection E as <- <- <-.
    apply t_read_size in Er2 as (A & B & C).
    apply take_size in E3 as (A3 & B3 & C3); [|left; rewrite room_size; lia].
    eapply less_le; [exact Er|lia|auto|]. intros O. apply C. auto. }
  destruct (id_start c) eqn:Ei.
  { destruct (take_while (room s1) id_char c s1) as [[l e] s2] eqn:E2. injection E as <- <- <-.
    rewrite room_size in E2. remember (S (size s1)) as m eqn:Em. cbn [take_while] in E2. rewrite (start_char _ Ei) in E2. cbn [andb] in E2.
    destruct (t_ok s1) eqn:O1.
    - destruct (t_read s1) as [c2 s2'] eqn:Er2. destruct (take_while _ id_char c2 s2') as [[l3 e3] s3] eqn:E3.
      injection E2 as <- <- <-.
      apply t_read_size in Er2 as (A & B & C).
      apply take_size in E3 as (A3 & B3 & C3); [|destruct (t_ok s2') eqn:O2; [left; destruct (C eq_refl); lia|right; split; [reflexivity|lia]]].
      destruct (unread_size e3 s3) as (U1 & U2 & U3 & U4); [auto|].
      destruct (t_ok s3) eqn:O3.
      + specialize (C3 eq_refl). destruct (C C3) as (_ & L1). destruct Er as (A0 & B0 & C0). destruct (C0 O1).
        split; [rewrite U3; lia|]. split; [auto|]. intros _. split; [exact Ok|]. rewrite U3; lia.
      + rewrite U4 by reflexivity. eapply less_le; [exact Er|lia|auto|]. congruence.
    - injection E2 as <- <- <-. unfold unread. rewrite O1. exact Er. }
  destruct (t_ok s1) eqn:O1.
  - assert (less s1 s').
    { eapply IH; eauto. destruct Er as (_ & _ & C). destruct (C O1). lia. }
    destruct H as (A & B & C). eapply less_le; eauto; intros O; apply C; exact O.
  - assert (E1 : s' = s1).
    { destruct n; [|cbn [token] in E; rewrite O1 in E; cbn in E; congruence]. cbn [token] in E. injection E as <- <- <-.
      unfold t_fail. unfold t_ok in O1. destruct s1 as [b i [e|]]; [reflexivity|discriminate]. }
    subst. exact Er.
Qed.

Lemma get_less s t x s' : get_token s = (t, x, s') -> t_ok s = true -> not_fuel s -> less s s'.
Proof. intros E. apply token_less with (1 := E). rewrite room_size. lia. Qed.

(** Steps that may leave everything as it is. *)
Definition still (s s' : tst) : Prop :=
  (size s' <= size s)%nat /\ (not_fuel s -> not_fuel s') /\ (t_ok s' = true -> t_ok s = true).
Lemma less_still s s' : less s s' -> still s s'.
Proof. intros (A & B & C). split; [exact A|]. split; [exact B|]. intros O. apply C, O. Qed.
Lemma still_refl s : still s s. Proof. split; [lia|]. auto. Qed.
Lemma still_trans a b c : still a b -> still b c -> still a c.
Proof. intros (A & B & C) (A' & B' & C'). split; [lia|]. auto. Qed.
Lemma less_still_trans a b c : less a b -> still b c -> less a c.
Proof. intros H (A & B & C). eapply less_le; eauto. Qed.
Lemma still_less_trans a b c : still a b -> less b c -> less a c.
Proof. intros (A & B & C) (A' & B' & C'). split; [lia|]. split; [auto|]. intros O. destruct (C' O). split; auto. lia. Qed.
Lemma fail_still s : still s (t_fail EOther s).
Proof.
  destruct s as [b i [e|]]; unfold still, size, not_fuel, t_fail, t_ok; cbn; repeat split; auto; discriminate.
Qed.
Lemma get_idle s : t_ok s = false -> get_token s = (TEol, [], s).
Proof. intros H. unfold get_token. rewrite room_size. cbn [token]. rewrite H. reflexivity. Qed.
Lemma get_still s t x s' : get_token s = (t, x, s') -> not_fuel s -> still s s'.
Proof.
  intros E NF. destruct (t_ok s) eqn:O.
  - apply less_still. eapply get_less; eauto.
  - rewrite get_idle in E by exact O. injection E as <- <- <-. apply still_refl.
Qed.
Lemma skip_still t s : not_fuel s -> still s (t_skip t s).
Proof.
  intros NF. unfold t_skip. destruct (get_token s) as [[t' x] s1] eqn:E. apply get_still in E; auto.
  destruct (negb (ttype_eqb t' t)); [eapply still_trans; [exact E|apply fail_still]|exact E].
Qed.

Lemma colon_still n : forall s, (size s + 1 < n)%nat \/ (t_ok s = false /\ 0 < n)%nat -> not_fuel s -> still s (seek_colon n s).
Proof.
  induction n as [|n IH]; intros s Hn NF; [lia|]. cbn [seek_colon]. destruct (t_ok s) eqn:O; [|apply still_refl].
  destruct Hn as [Hn|[Hn _]]; [|congruence].
  destruct (get_token s) as [[t x] s1] eqn:E. apply get_less in E; auto.
  destruct (beq x [58]); [apply less_still, E|].
  eapply still_trans; [apply less_still, E|]. destruct E as (A & B & C). apply IH; auto.
  destruct (t_ok s1); [left; destruct (C eq_refl); lia|right; split; [reflexivity|lia]].
Qed.

Lemma vals_still n : forall s l p s', array_vals parse_float n s = (l, p, s') ->
  (size s + 1 < n)%nat \/ (t_ok s = false /\ 0 < n)%nat -> not_fuel s -> still s s'.
Proof.
  induction n as [|n IH]; intros s l p s' E Hn NF; [lia|]. rewrite array_vals_step in E.
  destruct (t_ok s) eqn:O; [|injection E as <- <- <-; apply still_refl].
  destruct Hn as [Hn|[Hn _]]; [|congruence].
  destruct (get_token s) as [[t x] s1] eqn:E1. apply get_less in E1; auto.
  assert (P : (size s1 + 1 < n)%nat \/ (t_ok s1 = false /\ 0 < n)%nat).
  { destruct E1 as (A & B & C). destruct (t_ok s1); [left; destruct (C eq_refl); lia|right; split; [reflexivity|lia]]. }
  assert (NF1 : not_fuel s1) by (apply E1; exact NF).
  apply less_still in E1.
  destruct t; try (injection E as <- <- <-; first [exact E1 | eapply still_trans; [exact E1|apply fail_still]]);
    try (solve [eapply still_trans; [exact E1|eapply IH; eauto]]).
  destruct (array_vals parse_float n s1) as [[l2 p2] s2] eqn:E2. injection E as <- <- <-.
  eapply still_trans; [exact E1|eapply IH; eauto].
Qed.

Lemma array_still s v s' : parse_array parse_float to_i32 s = (v, s') -> not_fuel s -> still s s'.
Proof.
  unfold parse_array. destruct (get_token s) as [[t x] s1] eqn:E1. intros E NF. apply get_still in E1; auto.
  assert (NF1 : not_fuel s1) by (apply E1; exact NF).
  destruct (match parse_int 32 x with Some v0 => (v0, s1) | None => (0, t_fail EOther s1) end) as [sz s2] eqn:E2.
  assert (S2 : still s1 s2).
  { destruct (parse_int 32 x); injection E2 as <- <-; [apply still_refl|apply fail_still]. }
  assert (NF2 : not_fuel s2) by (apply S2; exact NF1).
  pose proof (skip_still TOpen s2 NF2) as S3. set (s3 := t_skip TOpen s2) in *.
  assert (NF3 : not_fuel s3) by (apply S3; exact NF2). cbn zeta in E.
  assert (S4 : still s3 (seek_colon (room s3) s3)).
  { apply colon_still; auto. rewrite room_size.
    destruct (t_ok s3) eqn:O; [|right; split; [reflexivity|lia]]. left. lia. }
  set (s4 := seek_colon (room s3) s3) in *. assert (NF4 : not_fuel s4) by (apply S4; exact NF3).
  destruct (if 0 <? sz then array_vals parse_float (room s4) s4 else ([], false, s4)) as [[l p] s5] eqn:E5.
  assert (S5 : still s4 s5).
  { destruct (0 <? sz).
    - eapply vals_still; [exact E5| |exact NF4]. rewrite room_size. left. lia.
    - injection E5 as <- <- <-. apply still_refl. }
  injection E as <- <-.
  assert (S6 : still s5 (if Z.of_nat (length l) =? sz then s5 else t_fail EOther s5)).
  { destruct (_ =? _); [apply still_refl|apply fail_still]. }
  do 5 (eapply still_trans; [eassumption|]). exact S6.
Qed.

Lemma eof_still s : still s (match t_err s with Some EEof => mkT (t_buf s) (t_in s) (Some EOther) | _ => s end).
Proof.
  destruct s as [b i [[]|]]; unfold still, size, not_fuel, t_ok; cbn; repeat split; auto; try discriminate.
Qed.

Lemma lists_still n :
  (forall s l s', node_list parse_float to_i32 n s = (l, s') ->
     (size s + 1 < n)%nat \/ (t_ok s = false /\ 0 < n)%nat -> not_fuel s -> still s s') /\
  (forall prev s a k s', attr_loop parse_float to_i32 n prev s = (a, k, s') ->
     (size s + 1 < n)%nat \/ (t_ok s = false /\ 0 < n)%nat -> not_fuel s -> still s s').
Proof.
  induction n as [|n [IHn IHa]]; [split; intros; lia|].
  assert (P : forall s s1, (size s + 1 < S n)%nat -> less s s1 -> (size s1 + 1 < n)%nat \/ (t_ok s1 = false /\ 0 < n)%nat).
  { intros s s1 Hn (A & B & C). destruct (t_ok s1); [left; destruct (C eq_refl); lia|right; split; [reflexivity|lia]]. }
  split.
  - intros s l s' E Hn NF. rewrite node_list_step in E. destruct (t_ok s) eqn:O; cbn [negb] in E;
      [|injection E as <- <-; apply still_refl].
    destruct Hn as [Hn|[Hn _]]; [|congruence].
    destruct (get_token s) as [[t x] s1] eqn:E1. apply get_less in E1; auto.
    assert (NF1 : not_fuel s1) by (apply E1; exact NF).
    pose proof (P _ _ Hn E1) as P1.
    destruct t; try (injection E as <- <-; apply less_still in E1; first [exact E1 | eapply still_trans; [exact E1|apply fail_still]]);
      try (solve [eapply still_trans; [apply less_still, E1|eapply IHn; eauto]]).
    destruct (attr_loop parse_float to_i32 n TColon (t_skip TColon s1)) as [[a k] s2] eqn:E2.
    pose proof (skip_still TColon s1 NF1) as S1.
    pose proof (less_still_trans _ _ _ E1 S1) as L1.
    assert (S2 : still (t_skip TColon s1) s2).
    { eapply IHa; [exact E2|eapply P; eauto|]. apply S1, NF1. }
    pose proof (less_still_trans _ _ _ L1 S2) as L2.
    cbn zeta in E.
    pose proof (less_still_trans _ _ _ L2 (eof_still s2)) as L3.
    set (s3 := match t_err s2 with Some EEof => mkT (t_buf s2) (t_in s2) (Some EOther) | _ => s2 end) in *.
    destruct (node_list parse_float to_i32 n s3) as [l4 s4] eqn:E4. injection E as <- <-.
    eapply still_trans; [apply less_still, L3|]. eapply IHn; [exact E4|eapply P; eauto|]. apply L3, NF.
  - intros prev s a k s' E Hn NF. rewrite attr_loop_step in E. destruct (t_ok s) eqn:O; cbn [negb] in E;
      [|injection E as <- <- <-; apply still_refl].
    destruct Hn as [Hn|[Hn _]]; [|congruence].
    destruct (get_token s) as [[t x] s1] eqn:E1. apply get_less in E1; auto.
    assert (NF1 : not_fuel s1) by (apply E1; exact NF).
    pose proof (P _ _ Hn E1) as P1.
    destruct (ttype_eqb t TEol && negb (ttype_eqb prev TComma)); [injection E as <- <- <-; apply less_still, E1|].
    destruct t; try (solve [eapply still_trans; [apply less_still, E1|eapply IHa; eauto]]).
    + destruct (if has_point x then _ else _) as [v s2] eqn:E2.
      assert (S2 : still s1 s2).
      { destruct (has_point x).
        - destruct (parse_float x) as [f []]; injection E2 as <- <-; [apply still_refl|apply fail_still].
        - destruct (parse_int 64 x); injection E2 as <- <-; [apply still_refl|apply fail_still]. }
      destruct (attr_loop parse_float to_i32 n TNumber s2) as [[a3 k3] s3] eqn:E3. injection E as <- <- <-.
      pose proof (less_still_trans _ _ _ E1 S2) as L2.
      eapply still_trans; [apply less_still, L2|]. eapply IHa; [exact E3|eapply P; eauto|]. apply L2, NF.
    + destruct (attr_loop parse_float to_i32 n TString s1) as [[a3 k3] s3] eqn:E3. injection E as <- <- <-.
      eapply still_trans; [apply less_still, E1|eapply IHa; eauto].
    + destruct (node_list parse_float to_i32 n s1) as [l2 s2] eqn:E2. injection E as <- <- <-.
      eapply still_trans; [apply less_still, E1|eapply IHn; eauto].
    + destruct (parse_array parse_float to_i32 s1) as [v s2] eqn:E2.
      apply array_still in E2; auto.
      destruct (attr_loop parse_float to_i32 n TStar s2) as [[a3 k3] s3] eqn:E3. injection E as <- <- <-.
      pose proof (less_still_trans _ _ _ E1 E2) as L2.
      eapply still_trans; [apply less_still, L2|]. eapply IHa; [exact E3|eapply P; eauto|]. apply L2, NF.
Qed.

Lemma text_total data : parse_text parse_float to_i32 data <> FFuel.
Proof.
  unfold parse_text. set (s0 := mkT (firstn 21 data) (skipn 21 data) None).
  destruct (node_list parse_float to_i32 _ s0) as [l s] eqn:E.
  apply (proj1 (lists_still _)) in E.
  - destruct E as (_ & B & _). assert (NF : not_fuel s) by (apply B; discriminate).
    destruct (t_err s) as [[]|] eqn:Es; try discriminate. contradiction.
  - left. assert (size s0 = length data).
    { unfold size, s0. cbn [t_buf t_in]. rewrite <- app_length, firstn_skipn. reflexivity. }
    lia.
  - discriminate.
Qed.

Lemma any_total seek inflate data : parse_any parse_float to_i32 seek inflate data <> FFuel.
Proof.
  unfold parse_any. pose proof (parse_total seek inflate data) as H.
  destruct (parse_fbx seek inflate data); try discriminate; [congruence|]. apply text_total.
Qed.

(** The bounds do not matter. *)
Lemma lists_fuel n :
  (forall m s, (size s + 1 < n)%nat \/ (t_ok s = false /\ 0 < n)%nat -> (size s + 1 < m)%nat \/ (t_ok s = false /\ 0 < m)%nat ->
     not_fuel s -> node_list parse_float to_i32 n s = node_list parse_float to_i32 m s) /\
  (forall m prev s, (size s + 1 < n)%nat \/ (t_ok s = false /\ 0 < n)%nat -> (size s + 1 < m)%nat \/ (t_ok s = false /\ 0 < m)%nat ->
     not_fuel s -> attr_loop parse_float to_i32 n prev s = attr_loop parse_float to_i32 m prev s).
Proof.
  induction n as [|n [IHn IHa]]; [split; intros; lia|].
  assert (P : forall k s s1, (size s + 1 < S k)%nat -> less s s1 -> (size s1 + 1 < k)%nat \/ (t_ok s1 = false /\ 0 < k)%nat).
  { intros k s s1 Hn (A & B & C). destruct (t_ok s1); [left; destruct (C eq_refl); lia|right; split; [reflexivity|lia]]. }
  split.
  - intros m s Hn Hm NF. destruct m as [|m]; [lia|]. rewrite !node_list_step. destruct (t_ok s) eqn:O; cbn [negb]; [|reflexivity].
    destruct Hn as [Hn|[Hn _]]; [|congruence]. destruct Hm as [Hm|[Hm _]]; [|congruence].
    destruct (get_token s) as [[t x] s1] eqn:E1. apply get_less in E1; auto.
    assert (NF1 : not_fuel s1) by (apply E1; exact NF).
    pose proof (P _ _ _ Hn E1) as P1. pose proof (P _ _ _ Hm E1) as Q1.
    destruct t; try reflexivity; [|apply IHn; auto].
    pose proof (skip_still TColon s1 NF1) as S1.
    pose proof (less_still_trans _ _ _ E1 S1) as L1.
    assert (NF2 : not_fuel (t_skip TColon s1)) by (apply S1, NF1).
    rewrite (IHa m TColon (t_skip TColon s1)); [|eapply P; eauto|eapply P; eauto|exact NF2].
    destruct (attr_loop parse_float to_i32 m TColon (t_skip TColon s1)) as [[a k] s2] eqn:E2.
    assert (S2 : still (t_skip TColon s1) s2).
    { eapply (proj2 (lists_still m)); [exact E2|eapply P; eauto|exact NF2]. }
    pose proof (less_still_trans _ _ _ L1 S2) as L2.
    cbn zeta.
    pose proof (less_still_trans _ _ _ L2 (eof_still s2)) as L3.
    set (s3 := match t_err s2 with Some EEof => mkT (t_buf s2) (t_in s2) (Some EOther) | _ => s2 end) in *.
    rewrite (IHn m s3); [reflexivity|eapply P; eauto|eapply P; eauto|apply L3, NF].
  - intros m prev s Hn Hm NF. destruct m as [|m]; [lia|]. rewrite !attr_loop_step. destruct (t_ok s) eqn:O; cbn [negb]; [|reflexivity].
    destruct Hn as [Hn|[Hn _]]; [|congruence]. destruct Hm as [Hm|[Hm _]]; [|congruence].
    destruct (get_token s) as [[t x] s1] eqn:E1. apply get_less in E1; auto.
    assert (NF1 : not_fuel s1) by (apply E1; exact NF).
    pose proof (P _ _ _ Hn E1) as P1. pose proof (P _ _ _ Hm E1) as Q1.
    destruct (ttype_eqb t TEol && negb (ttype_eqb prev TComma)); [reflexivity|].
    destruct t; try (apply IHa; auto).
    + destruct (if has_point x then _ else _) as [v s2] eqn:E2.
      assert (S2 : still s1 s2).
      { destruct (has_point x).
        - destruct (parse_float x) as [f []]; injection E2 as <- <-; [apply still_refl|apply fail_still].
        - destruct (parse_int 64 x); injection E2 as <- <-; [apply still_refl|apply fail_still]. }
      pose proof (less_still_trans _ _ _ E1 S2) as L2.
      rewrite (IHa m TNumber s2); [reflexivity|eapply P; eauto|eapply P; eauto|apply L2, NF].
    + rewrite (IHa m TString s1); auto.
    + rewrite (IHn m s1); auto.
    + destruct (parse_array parse_float to_i32 s1) as [v s2] eqn:E2.
      apply array_still in E2; auto.
      pose proof (less_still_trans _ _ _ E1 E2) as L2.
      rewrite (IHa m TStar s2); [reflexivity|eapply P; eauto|eapply P; eauto|apply L2, NF].
Qed.

Lemma comment_text c body : ~ In 10 c -> (20 <= length c)%nat ->
  parse_text parse_float to_i32 (59 :: c ++ 10 :: body) =
  let (l, s) := node_list parse_float to_i32 (S (S (length body))) (mkT [] body None) in
  match t_err s with
  | Some EFuel => FFuel
  | Some EOther => FErr
  | _ => FTree (Node root_name [] l)
  end.
Proof.
  intros Hc Hl. unfold parse_text. rewrite node_list_step. cbn [t_ok t_err negb].
  rewrite first_comment by assumption.
  rewrite (proj1 (lists_fuel _) (S (S (length body)))); [reflexivity| | |discriminate]; left; unfold size; cbn [t_buf t_in length Nat.add].
  - rewrite app_length. cbn [length]. lia.
  - lia.
Qed.

Lemma semicolon_text seek inflate x : (21 <= length (59%Z :: x))%nat -> parse_fbx seek inflate (59 :: x) = FText.
Proof.
  intros H. unfold parse_fbx, get. cbn [r_err r_rest r_pos].
  assert (L : (21 <=? blen (59 :: x)) = true) by (apply Z.leb_le; unfold blen; lia).
  rewrite L. reflexivity.
Qed.

Lemma comment_free seek inflate c1 c2 body :
  ~ In 10 c1 -> ~ In 10 c2 -> (20 <= length c1)%nat -> (20 <= length c2)%nat ->
  parse_any parse_float to_i32 seek inflate (59 :: c1 ++ 10 :: body) =
  parse_any parse_float to_i32 seek inflate (59 :: c2 ++ 10 :: body).
Proof.
  intros N1 N2 L1 L2. unfold parse_any.
  rewrite !semicolon_text by (cbn [length]; rewrite app_length; cbn [length]; lia).
  rewrite !comment_text by assumption. reflexivity.
Qed.
End Reading.
