(** Composition lemmas for the byte codecs of Model/Codec.v. *)
From Coq Require Import List ZArith Bool Lia ZifyBool ZifyNat.
From Verif.Model Require Import Num Vec Codec.
Import ListNotations.
Open Scope Z_scope.
Ltac Zify.zify_post_hook ::= Z.div_mod_to_equations.

Definition byte (b : Z) : Prop := 0 <= b < 256.

Lemma le_enc_length k v : length (le_enc k v) = k.
Proof. revert v; induction k as [|k IH]; intros v; cbn [le_enc length]; [|rewrite IH]; reflexivity. Qed.

Lemma le_enc_bytes k v : Forall byte (le_enc k v).
Proof.
  revert v; induction k as [|k IH]; intros v; cbn [le_enc]; constructor; auto.
  unfold byte; lia.
Qed.

Lemma pow256_S k : 256 ^ Z.of_nat (S k) = 256 * 256 ^ Z.of_nat k.
Proof. rewrite Nat2Z.inj_succ, Z.pow_succ_r by lia; reflexivity. Qed.

Lemma le_dec_enc k v : le_dec (le_enc k v) = v mod 256 ^ Z.of_nat k.
Proof.
  revert v; induction k as [|k IH]; intros v.
  - cbn. rewrite Z.mod_1_r. reflexivity.
  - cbn [le_enc le_dec]. rewrite IH, pow256_S.
    rewrite Z.rem_mul_r by lia. reflexivity.
Qed.

Lemma le_dec_enc_id k v : 0 <= v < 256 ^ Z.of_nat k -> le_dec (le_enc k v) = v.
Proof. intros H; rewrite le_dec_enc; apply Z.mod_small; exact H. Qed.

Lemma pow2_256 k : 2 ^ (8 * Z.of_nat k) = 256 ^ Z.of_nat k.
Proof. change 256 with (2 ^ 8). rewrite Z.pow_mul_r by lia. reflexivity. Qed.

Lemma pow2_half k : (0 < k)%nat -> 2 * 2 ^ (8 * Z.of_nat k - 1) = 256 ^ Z.of_nat k.
Proof.
  intros H. rewrite <- pow2_256, <- Z.pow_succ_r by lia. f_equal; lia.
Qed.

Lemma to_signed_enc k v : (0 < k)%nat ->
  - 2 ^ (8 * Z.of_nat k - 1) <= v < 2 ^ (8 * Z.of_nat k - 1) ->
  to_signed k (le_dec (le_enc k v)) = v.
Proof.
  intros Hk Hv. rewrite le_dec_enc. unfold to_signed. rewrite pow2_256.
  pose proof (pow2_half k Hk) as Hp.
  set (h := 2 ^ (8 * Z.of_nat k - 1)) in *. set (m := 256 ^ Z.of_nat k) in *.
  assert (0 < h) by (apply Z.pow_pos_nonneg; lia).
  destruct (Z_lt_le_dec v 0) as [Hn|Hn].
  - rewrite <- (Z.mod_add v 1 m) by lia. rewrite Z.mod_small by lia.
    destruct (Z.ltb_spec (v + 1 * m) h); lia.
  - rewrite Z.mod_small by lia. destruct (Z.ltb_spec v h); lia.
Qed.

Lemma le_dec_bound bs : Forall byte bs -> 0 <= le_dec bs < 256 ^ Z.of_nat (length bs).
Proof.
  induction 1 as [|b bs Hb _ IH]; cbn [le_dec length]; [cbn; lia|].
  rewrite pow256_S. unfold byte in Hb. lia.
Qed.

Lemma to_signed_bound k u : (0 < k)%nat -> 0 <= u < 256 ^ Z.of_nat k ->
  - 2 ^ (8 * Z.of_nat k - 1) <= to_signed k u < 2 ^ (8 * Z.of_nat k - 1).
Proof.
  intros Hk Hu. unfold to_signed. rewrite pow2_256.
  pose proof (pow2_half k Hk) as Hp.
  destruct (Z.ltb_spec u (2 ^ (8 * Z.of_nat k - 1))); lia.
Qed.

Lemma read_full_app b rest : read_full (length b) (b ++ rest) = ROk (Some b) rest.
Proof.
  unfold read_full. rewrite app_length.
  replace (length b <=? length b + length rest)%nat with true by lia.
  rewrite firstn_app, Nat.sub_diag, firstn_all, firstn_O, app_nil_r.
  rewrite skipn_app, skipn_all, Nat.sub_diag, skipn_O. reflexivity.
Qed.

(** ** Round trips *)
Definition codes {A} (p : P A) (w : W) (a : A) : Prop :=
  exists bs, w = Some bs /\ forall rest, p (bs ++ rest) = ROk a rest.

Lemma codes_ret {A} (a : A) : codes (ret a) (Some []) a.
Proof. exists []; split; [reflexivity|]. intros rest; reflexivity. Qed.

Lemma codes_bind {A B} (p : P A) (k : A -> P B) w w' a b :
  codes p w a -> codes (k a) w' b -> codes (bind p k) (w +++ w') b.
Proof.
  intros [bs [-> Hp]] [bs' [-> Hk]]. exists (bs ++ bs'). split; [reflexivity|].
  intros rest. unfold bind. rewrite <- app_assoc, Hp. apply Hk.
Qed.

Lemma codes_map {A B} (p : P A) (f : A -> B) w a b :
  codes p w a -> f a = b -> codes (bind p (fun x => ret (f x))) w b.
Proof.
  intros [bs [-> Hp]] <-. exists bs. split; [reflexivity|].
  intros rest. unfold bind. rewrite Hp. reflexivity.
Qed.

(** A step that consumes nothing. *)
Lemma codes_skip {A B} (p : P A) (k : A -> P B) w a b :
  (forall bs, p bs = ROk a bs) -> codes (k a) w b -> codes (bind p k) w b.
Proof.
  intros Hp [bs [-> Hk]]. exists bs. split; [reflexivity|]. intros rest.
  unfold bind. rewrite Hp. apply Hk.
Qed.

Lemma codes_nil_l {A B} (p : P A) (k : A -> P B) w a b :
  codes p (Some []) a -> codes (k a) w b -> codes (bind p k) w b.
Proof.
  intros [bs [E Hp]] Hk. injection E as <-. eapply codes_skip; [|exact Hk]. exact Hp.
Qed.

Lemma codes_wseq_nil {A} (p : P A) w a : codes p (w +++ Some []) a -> codes p w a.
Proof.
  intros [bs [E H]]. exists bs. split; [|exact H].
  destruct w as [x|]; cbn in E; [|discriminate]. rewrite app_nil_r in E. exact E.
Qed.

Lemma wseq_assoc a b c : (a +++ b) +++ c = a +++ (b +++ c).
Proof. destruct a, b, c; cbn; rewrite ?app_assoc; reflexivity. Qed.

Lemma codes_repeat {A B} (p : P B) (f : A -> W) (g : A -> B) (l : list A) :
  Forall (fun a => codes p (f a) (g a)) l ->
  codes (repeatP (length l) p) (wlist f l) (map g l).
Proof.
  induction 1 as [|a l Ha _ IH]; cbn [length repeatP wlist fold_right map].
  - apply codes_ret.
  - eapply codes_bind; [exact Ha|]. eapply codes_map; [exact IH|]. reflexivity.
Qed.

Lemma codes_repeat_id {A} (p : P A) (f : A -> W) (l : list A) n :
  n = length l -> Forall (fun a => codes p (f a) a) l ->
  codes (repeatP n p) (wlist f l) l.
Proof.
  intros -> H. pose proof (codes_repeat p f (fun x => x) l H) as R.
  rewrite map_id in R. exact R.
Qed.

Lemma codes_read_full k b : length b = k -> codes (read_full k) (Some b) (Some b).
Proof. intros <-. exists b. split; [reflexivity|]. apply read_full_app. Qed.

Lemma codes_read_raw k b : length b = k -> codes (read_raw k) (Some b) b.
Proof. intros H. unfold read_raw. eapply codes_map; [apply codes_read_full; exact H|]. reflexivity. Qed.

Lemma codes_read_u k v : 0 <= v < 256 ^ Z.of_nat k -> codes (read_u k) (Some (le_enc k v)) v.
Proof.
  intros H. unfold read_u. eapply codes_map.
  - apply codes_read_full. apply le_enc_length.
  - apply le_dec_enc_id; exact H.
Qed.

Lemma codes_run {A} (p : P A) w a bs rest :
  codes p w a -> w = Some bs -> p (bs ++ rest) = ROk a rest.
Proof. intros [b [E H]] E'. rewrite E in E'. injection E' as ->. apply H. Qed.

(** ** What a parser guarantees about its result, whatever the input *)
Definition ensures {A} (p : P A) (Q : A -> Prop) : Prop :=
  forall bs a r, Forall byte bs -> p bs = ROk a r -> Q a /\ Forall byte r.

Lemma ensures_ret {A} (a : A) (Q : A -> Prop) : Q a -> ensures (ret a) Q.
Proof. intros HQ bs x r Hb E. injection E as <- <-. auto. Qed.

Lemma ensures_bind {A B} (p : P A) (k : A -> P B) Q R :
  ensures p Q -> (forall a, Q a -> ensures (k a) R) -> ensures (bind p k) R.
Proof.
  intros Hp Hk bs b r Hb E. unfold bind in E.
  destruct (p bs) as [a r'| | |] eqn:Ep; try discriminate.
  destruct (Hp _ _ _ Hb Ep) as [HQ Hr]. exact (Hk a HQ _ _ _ Hr E).
Qed.

Lemma ensures_weaken {A} (p : P A) (Q R : A -> Prop) :
  ensures p Q -> (forall a, Q a -> R a) -> ensures p R.
Proof. intros H HR bs a r Hb E. destruct (H _ _ _ Hb E) as [HQ Hr]. auto. Qed.

Lemma ensures_fatal {A} (Q : A -> Prop) : ensures fatal Q.
Proof. intros bs a r _ E; discriminate. Qed.
Lemma ensures_panic {A} (Q : A -> Prop) : ensures panic Q.
Proof. intros bs a r _ E; discriminate. Qed.
Lemma ensures_perr {A} (Q : A -> Prop) : ensures perr Q.
Proof. intros bs a r _ E; discriminate. Qed.

Lemma Forall_firstn' {A} (Q : A -> Prop) n l : Forall Q l -> Forall Q (firstn n l).
Proof. intros H; revert n; induction H; intros [|n]; cbn; constructor; auto. Qed.
Lemma Forall_skipn' {A} (Q : A -> Prop) n l : Forall Q l -> Forall Q (skipn n l).
Proof. intros H; revert n; induction H as [|a l Ha Hl IH]; intros [|n]; cbn; auto. Qed.

Lemma ensures_read_full k :
  ensures (read_full k) (fun o => match o with Some b => Forall byte b /\ length b = k | None => True end).
Proof.
  intros bs a r Hb E. unfold read_full in E.
  destruct (Nat.leb_spec k (length bs)) as [Hl|Hl]; injection E as <- <-; split; auto.
  - split; [apply Forall_firstn'; exact Hb|]. apply firstn_length_le; exact Hl.
  - apply Forall_skipn'; exact Hb.
Qed.

Lemma ensures_read_raw k : ensures (read_raw k) (fun b => Forall byte b /\ length b = k).
Proof.
  unfold read_raw. eapply ensures_bind; [apply ensures_read_full|].
  intros [b|] H; apply ensures_ret; [exact H|].
  split; [|apply repeat_length]. apply Forall_forall. intros x Hx.
  apply repeat_spec in Hx. subst. unfold byte; lia.
Qed.

Lemma ensures_read_u k : ensures (read_u k) (fun v => 0 <= v < 256 ^ Z.of_nat k).
Proof.
  unfold read_u. eapply ensures_bind; [apply ensures_read_full|].
  intros [b|] H; apply ensures_ret.
  - destruct H as [Hb <-]. apply le_dec_bound; exact Hb.
  - assert (0 < 256 ^ Z.of_nat k) by (apply Z.pow_pos_nonneg; lia). lia.
Qed.

Lemma ensures_repeat {A} (p : P A) (Q : A -> Prop) n :
  ensures p Q -> ensures (repeatP n p) (fun l => Forall Q l /\ length l = n).
Proof.
  intros Hp. induction n as [|n IH]; cbn [repeatP].
  - apply ensures_ret; split; [constructor|reflexivity].
  - eapply ensures_bind; [exact Hp|]. intros a Ha.
    eapply ensures_bind; [exact IH|]. intros l [Hl Hn].
    apply ensures_ret. split; [constructor; auto|cbn; congruence].
Qed.

(** ** Parsers that never return an error value *)
Definition no_err {A} (p : P A) : Prop := forall bs, p bs <> RErr.
Lemma no_err_ret {A} (a : A) : no_err (ret a).
Proof. intros bs; discriminate. Qed.
Lemma no_err_bind {A B} (p : P A) (k : A -> P B) :
  no_err p -> (forall a, no_err (k a)) -> no_err (bind p k).
Proof.
  intros Hp Hk bs. unfold bind. specialize (Hp bs).
  destruct (p bs); [apply Hk|congruence|discriminate|discriminate].
Qed.
Lemma no_err_fatal {A} : no_err (@fatal A). Proof. intros bs; discriminate. Qed.
Lemma no_err_panic {A} : no_err (@panic A). Proof. intros bs; discriminate. Qed.
Lemma no_err_read_full k : no_err (read_full k).
Proof. intros bs; unfold read_full; destruct (_ <=? _)%nat; discriminate. Qed.
Lemma no_err_repeat {A} (p : P A) n : no_err p -> no_err (repeatP n p).
Proof.
  intros Hp; induction n; cbn [repeatP]; [apply no_err_ret|].
  apply no_err_bind; [exact Hp|]. intros a. apply no_err_bind; [assumption|].
  intros l; apply no_err_ret.
Qed.
