(** The binary FBX parser stops on every input: the recursion bound of the model is never
    reached. *)
From Coq Require Import List ZArith Bool Lia ZifyBool ZifyNat.
From Verif.Model Require Import Codec Fbx.
From Verif.Proofs Require Import CodecLemmas FbxProofs.
Import ListNotations.
Local Open Scope Z_scope.

Definition nrest (s : rdst) : nat := length (r_rest s).

(** A step that consumes [k] bytes or sets an error, and never invents [EFuel]. *)
Definition eats {A} (k : nat) (p : M A) : Prop := forall s,
  let s' := snd (p s) in
  (nrest s' <= nrest s)%nat /\
  (r_err s <> Some EFuel -> r_err s' <> Some EFuel) /\
  (r_err s' = None -> r_err s = None /\ (nrest s' + k <= nrest s)%nat).

Lemma eats_ret {A} (a : A) : eats 0 (mret a).
Proof. intros s. cbn. repeat split; auto; lia. Qed.
Lemma eats_bind {A B} j k n (p : M A) (q : A -> M B) : (n <= j + k)%nat ->
  eats j p -> (forall a, eats k (q a)) -> eats n (mbind p q).
Proof.
  intros Hn Hp Hq s. unfold mbind. specialize (Hp s). destruct (p s) as [a s1]. cbn [snd] in *.
  specialize (Hq a s1). destruct (q a s1) as [b s2]. cbn [snd] in *.
  destruct Hp as (P1 & P2 & P3), Hq as (Q1 & Q2 & Q3). split; [lia|]. split; [auto|].
  intros H. destruct (Q3 H) as (E & L). destruct (P3 E) as (E0 & L0). split; [exact E0|lia].
Qed.
Lemma eats_weaken {A} j k (p : M A) : (k <= j)%nat -> eats j p -> eats k p.
Proof.
  intros H Hp s. destruct (Hp s) as (P1 & P2 & P3). repeat split; auto; apply P3 in H0; lia || apply H0.
Qed.
Lemma nrest_skip k l : (length (skipZ k l) <= length l)%nat.
Proof. rewrite skipZ_skipn, skipn_length. lia. Qed.
Lemma eats_get k : eats (Z.to_nat k) (get k).
Proof.
  intros s. unfold get. destruct (r_err s) as [e|] eqn:E.
  { cbn [snd]. rewrite E. repeat split; auto; discriminate. }
  destruct (Z.leb_spec k (blen (r_rest s))); cbn [snd]; unfold nrest; cbn [r_rest r_err length].
  - pose proof (nrest_skip k (r_rest s)). repeat split; auto; try discriminate.
    rewrite skipZ_skipn, skipn_length. unfold blen in *. lia.
  - repeat split; auto; try discriminate; try lia. destruct (r_rest s); discriminate.
Qed.
Lemma eats_get0 k : eats 0 (get k).
Proof. eapply eats_weaken; [|apply eats_get]. lia. Qed.
Lemma eats_u k : eats k (rd_u k).
Proof. unfold rd_u. eapply eats_bind; [|apply eats_get|intros; apply eats_ret]. lia. Qed.
Lemma eats_s k : eats k (rd_s k).
Proof. unfold rd_s. eapply eats_bind; [|apply eats_get|intros; apply eats_ret]. lia. Qed.
Lemma eats_err {A} n e (k : M A) : e <> EFuel -> (forall s, snd (k s) = s) -> eats n (mbind (set_err e) (fun _ => k)).
Proof.
  intros He Hk s. unfold mbind, set_err. rewrite Hk. cbn [r_err nrest r_rest].
  repeat split; auto; try discriminate. intros _ F. injection F as F. exact (He F).
Qed.

Section Reader.
Variable seek : option Z.
Variable inflate : bytes -> Z -> Z * infl.

Lemma skip_rest pos s : (nrest (snd (skip_to seek pos s)) <= nrest s)%nat /\ r_err (snd (skip_to seek pos s)) = r_err s /\
  fst (skip_to seek pos s) <> Some EFuel.
Proof.
  unfold skip_to, nrest. destruct (_ <? 0); [cbn; repeat split; auto; discriminate|].
  destruct seek as [m|].
  - destruct (pos <=? m); cbn [snd fst r_rest r_err]; repeat split; auto using nrest_skip; discriminate.
  - cbn [snd fst r_rest r_err]. repeat split; auto using nrest_skip.
    destruct (_ <? _); discriminate.
Qed.

Lemma eats_inflate sz want : eats 0 (rd_inflate seek inflate sz want).
Proof.
  intros s. unfold rd_inflate. destruct (inflate _ _) as [used out].
  set (k := Z.max 0 _). pose proof (nrest_skip k (r_rest s)) as Hk.
  destruct out as [|eof|b].
  - cbn [snd nrest r_rest r_err]. repeat split; auto; discriminate.
  - cbn [snd]. set (s2 := mkR _ _ (match _ with None => _ | Some e0 => _ end)).
    pose proof (skip_rest (r_pos s + sz) s2) as (S1 & S2 & _).
    assert (H2 : nrest s2 = length (skipZ k (r_rest s))) by reflexivity.
    assert (H3 : r_err s2 = match r_err s with None => Some (if eof then EEof else EOther) | Some e0 => Some e0 end) by reflexivity.
    split; [unfold nrest in *; lia|]. rewrite S2, H3. split.
    + destruct (r_err s) as [e0|]; [auto|]. intros _. destruct eof; discriminate.
    + destruct (r_err s); discriminate.
  - cbn [snd]. set (s2 := mkR _ _ _).
    pose proof (skip_rest (r_pos s + sz) s2) as (S1 & S2 & _).
    assert (H2 : nrest s2 = length (skipZ k (r_rest s))) by reflexivity.
    split; [unfold nrest in *; lia|]. rewrite S2. change (r_err s2) with (r_err s).
    split; [auto|]. intros H. split; [exact H|unfold nrest in *; lia].
Qed.

Lemma eats_array typ : eats 0 (rd_array seek inflate typ).
Proof.
  unfold rd_array.
  eapply (eats_bind 4 0); [lia|apply eats_u|intros count].
  eapply (eats_bind 4 0); [lia|apply eats_u|intros enc].
  eapply (eats_bind 4 0); [lia|apply eats_u|intros sz].
  destruct (arr_kind typ) as [[w mk]|]; [|apply eats_ret].
  eapply (eats_bind 0 0); [lia| |intros; apply eats_ret].
  destruct (enc =? 0); [apply eats_get0|apply eats_inflate].
Qed.

Lemma eats_prop : eats 1 (rd_prop seek inflate).
Proof.
  unfold rd_prop. eapply (eats_bind 1 0); [reflexivity|apply eats_u|intros typ].
  destruct (typ =? 66); [eapply eats_bind; [|apply eats_s|intros; apply eats_ret]; lia|].
  destruct (typ =? 67); [eapply eats_bind; [|apply eats_u|intros; apply eats_ret]; lia|].
  destruct (typ =? 89); [eapply eats_bind; [|apply eats_s|intros; apply eats_ret]; lia|].
  destruct (typ =? 73); [eapply eats_bind; [|apply eats_s|intros; apply eats_ret]; lia|].
  destruct (typ =? 76); [eapply eats_bind; [|apply eats_s|intros; apply eats_ret]; lia|].
  destruct (typ =? 70); [eapply eats_bind; [|apply eats_u|intros; apply eats_ret]; lia|].
  destruct (typ =? 68); [eapply eats_bind; [|apply eats_u|intros; apply eats_ret]; lia|].
  assert (St : forall mk : bytes -> attr, eats 0 (mbind (rd_u 4) (fun n => mbind (get n) (fun b => mret (mk b))))).
  { intros mk. eapply (eats_bind 4 0); [lia|apply eats_u|intros].
    eapply (eats_bind 0 0); [lia|apply eats_get0|intros; apply eats_ret]. }
  destruct (typ =? 83); [apply St|]. destruct (typ =? 82); [apply St|].
  destruct (arr_kind typ); [apply eats_array|].
  apply eats_err; [discriminate|reflexivity].
Qed.

Lemma props_eat fuel nprop s : (nrest s < fuel)%nat -> (r_err s = None -> (nrest s + 1 < fuel)%nat) ->
  let s' := snd (rd_props seek inflate fuel nprop s) in
  (nrest s' <= nrest s)%nat /\ (r_err s <> Some EFuel -> r_err s' <> Some EFuel) /\ (r_err s' = None -> r_err s = None).
Proof.
  revert nprop s; induction fuel as [|f IH]; intros nprop s Hf Hf'; [lia|].
  cbn [rd_props]. unfold no_error.
  destruct (r_err s) as [e|] eqn:E.
  { rewrite andb_false_r. cbn [snd]. rewrite E. repeat split; auto. }
  rewrite andb_true_r. destruct (0 <? nprop); [|cbn [snd]; rewrite E; repeat split; auto].
  destruct (eats_prop s) as (P1 & P2 & P3).
  destruct (rd_prop seek inflate s) as [a s1]. cbn [snd] in *. rewrite E in *.
  specialize (Hf' eq_refl).
  assert (H1 : (nrest s1 < f)%nat) by lia.
  assert (H2 : r_err s1 = None -> (nrest s1 + 1 < f)%nat) by (intros H; apply P3 in H; lia).
  specialize (IH (nprop - 1) s1 H1 H2).
  destruct (rd_props seek inflate f (nprop - 1) s1) as [l s2]. cbn [snd] in *.
  destruct IH as (I1 & I2 & I3). repeat split; auto; try lia.
Qed.

Lemma eats_name : eats 1 rd_name.
Proof. unfold rd_name. eapply (eats_bind 1 0); [reflexivity|apply eats_u|intros; apply eats_get0]. Qed.
Lemma eats_header ver : eats 13 (rd_header ver).
Proof.
  unfold rd_header. eapply (eats_bind 12 1); [reflexivity| |intros h].
  - destruct (7500 <=? ver).
    + eapply (eats_bind 8 16); [lia|apply eats_s|intros].
      eapply (eats_bind 8 8); [lia|apply eats_s|intros].
      eapply (eats_bind 8 0); [lia|apply eats_s|intros]. apply eats_ret.
    + eapply (eats_bind 4 8); [lia|apply eats_u|intros].
      eapply (eats_bind 4 4); [lia|apply eats_u|intros].
      eapply (eats_bind 4 0); [lia|apply eats_u|intros]. apply eats_ret.
  - eapply (eats_bind 1 0); [lia|apply eats_name|intros; apply eats_ret].
Qed.
(** If there is a byte, the header takes one even when it fails. *)
Lemma header_first ver s : r_err s = None -> (0 < nrest s)%nat -> (nrest (snd (rd_header ver s)) < nrest s)%nat.
Proof.
  assert (G : forall k s, r_err s = None -> (0 < nrest s)%nat -> (0 < k)%nat -> (nrest (snd (get (Z.of_nat k) s)) < nrest s)%nat).
  { clear s. intros k s E Hn Hk. unfold get. rewrite E.
    destruct (Z.leb_spec (Z.of_nat k) (blen (r_rest s))); cbn [snd]; unfold nrest in *; cbn [r_rest length]; [|lia].
    rewrite skipZ_skipn, skipn_length. lia. }
  assert (Then : forall A B k (f : bytes -> A) (q : A -> M B) s, r_err s = None -> (0 < nrest s)%nat -> (0 < k)%nat ->
     (forall a, eats 0 (q a)) -> (nrest (snd (mbind (mbind (get (Z.of_nat k)) (fun b => mret (f b))) q s)) < nrest s)%nat).
  { clear s. intros A B k f q s E Hn Hk Hq. specialize (G k s E Hn Hk). unfold mbind, mret.
    destruct (get (Z.of_nat k) s) as [b s1]. cbn [snd] in G. destruct (Hq (f b) s1) as (Q & _). lia. }
  intros E Hn. unfold rd_header. unfold mbind at 1.
  assert (H12 : (nrest (snd ((if (7500 <=? ver)%Z
      then mbind (rd_s 8) (fun next => mbind (rd_s 8) (fun nprop => mbind (rd_s 8) (fun propsz => mret (next, nprop, propsz))))
      else mbind (rd_u 4) (fun next => mbind (rd_u 4) (fun nprop => mbind (rd_u 4) (fun propsz => mret (next, nprop, propsz))))) s))
      < nrest s)%nat).
  { destruct (7500 <=? ver).
    - apply (Then _ _ 8%nat (fun b => to_signed 8 (le_dec b))); [exact E|exact Hn|lia|]. intros a.
      eapply (eats_bind 8 8); [lia|apply eats_s|intros].
      eapply (eats_bind 8 0); [lia|apply eats_s|intros]. apply eats_ret.
    - apply (Then _ _ 4%nat (fun b => le_dec b)); [exact E|exact Hn|lia|]. intros a.
      eapply (eats_bind 4 4); [lia|apply eats_u|intros].
      eapply (eats_bind 4 0); [lia|apply eats_u|intros]. apply eats_ret. }
  match goal with |- context [let (_, _) := ?x in _] => destruct x as [h s1] end. cbn [snd] in H12.
  assert (He : eats 0 (mbind rd_name (fun name => mret (h, name)))).
  { eapply (eats_bind 1 0); [lia|apply eats_name|intros; apply eats_ret]. }
  destruct (He s1) as (Q & _). lia.
Qed.

Lemma tree_total :
  (forall f ver s, r_err s = None -> (nrest s + 2 <= f)%nat ->
     let s' := snd (rd_node seek inflate f ver s) in
     (nrest s' <= nrest s)%nat /\ r_err s' <> Some EFuel /\
     ((0 < nrest s)%nat -> (nrest s' < nrest s)%nat) /\ (nrest s = 0%nat -> r_err s' <> None)) /\
  (forall f ver next s, r_err s <> Some EFuel -> (1 <= f)%nat -> (r_err s = None -> (nrest s + 3 <= f)%nat) ->
     let s' := snd (rd_kids seek inflate f ver next s) in
     (nrest s' <= nrest s)%nat /\ r_err s' <> Some EFuel).
Proof.
  assert (H : forall f,
    (forall ver s, r_err s = None -> (nrest s + 2 <= f)%nat ->
     let s' := snd (rd_node seek inflate f ver s) in
     (nrest s' <= nrest s)%nat /\ r_err s' <> Some EFuel /\
     ((0 < nrest s)%nat -> (nrest s' < nrest s)%nat) /\ (nrest s = 0%nat -> r_err s' <> None)) /\
    (forall ver next s, r_err s <> Some EFuel -> (1 <= f)%nat -> (r_err s = None -> (nrest s + 3 <= f)%nat) ->
     let s' := snd (rd_kids seek inflate f ver next s) in
     (nrest s' <= nrest s)%nat /\ r_err s' <> Some EFuel)).
  2: { split; intros f; apply (H f). }
  induction f as [|f (IHn & IHk)]; [split; intros; lia|]. split.
  - intros ver s E Hf.
    destruct (nrest s) as [|n] eqn:En.
    { destruct s as [rest pos err]. unfold nrest in En. cbn [r_rest r_err] in *. subst err.
      destruct rest; [|discriminate]. rewrite node_eof. cbn. repeat split; try lia; discriminate. }
    pose proof (eats_header ver s) as (H1 & H2 & H3).
    pose proof (header_first ver s E ltac:(lia)) as H0.
    rewrite rd_node_step. destruct (rd_header ver s) as [[[[next nprop] propsz] name] s1]. cbn [snd] in *.
    assert (Hne : r_err s1 <> Some EFuel) by (apply H2; rewrite E; discriminate).
    destruct (invalid nprop propsz).
    { destruct (skip_rest next s1) as (S1 & S2 & S3).
      destruct (skip_to seek next s1) as [e s2]. cbn [snd fst nrest r_rest r_err] in *.
      unfold nrest in *. cbn [r_rest]. repeat split; auto; try lia. }
    destruct (next =? 0).
    { cbn [snd]. repeat split; auto; try lia. }
    pose proof (props_eat (S (length (r_rest s1)) + 1) nprop s1 ltac:(unfold nrest; lia) ltac:(unfold nrest; lia)) as (P1 & P2 & P3).
    destruct (rd_props _ _ _ _ s1) as [attrs s2]. cbn [snd] in *. specialize (P2 Hne).
    destruct (bad_error s2) eqn:Eb.
    { cbn [snd]. repeat split; auto; try lia. }
    assert (K1 : (1 <= f)%nat) by lia.
    assert (K2 : r_err s2 = None -> (nrest s2 + 3 <= f)%nat).
    { intros Hz. apply P3 in Hz. apply H3 in Hz. lia. }
    pose proof (IHk ver next s2 P2 K1 K2) as (I1 & I2).
    destruct (rd_kids seek inflate f ver next s2) as [kids s3]. cbn [snd] in *.
    destruct (r_err s3) as [e3|] eqn:E3.
    + destruct (bad_error s3); cbn [snd]; rewrite ?E3; repeat split; auto; try lia; try discriminate.
    + destruct (skip_rest next s3) as (S1 & S2 & S3).
      destruct (skip_to seek next s3) as [e s4]. cbn [snd fst nrest r_rest r_err] in *.
      unfold nrest in *. destruct (bad_error (mkR (r_rest s4) (r_pos s4) e)); cbn [snd r_rest r_err]; repeat split; auto; try lia; try (intros; lia); try (intros; discriminate).
  - intros ver next s Hne Hf Hf'. rewrite rd_kids_step. unfold no_error.
    destruct (r_err s) as [e|] eqn:E.
    { rewrite andb_false_r. cbn [snd]. rewrite E. split; [lia|exact Hne]. }
    specialize (Hf' eq_refl). rewrite andb_true_r.
    destruct (r_pos s <? next); [|cbn [snd]; rewrite E; split; [lia|discriminate]].
    pose proof (IHn ver s E ltac:(lia)) as (N1 & N2 & N3 & N4).
    destruct (rd_node seek inflate f ver s) as [c s1]. cbn [snd] in *.
    assert (K : r_err s1 = None -> (nrest s1 + 3 <= f)%nat).
    { intros Hz. destruct (nrest s) as [|n]; [exfalso; exact (N4 eq_refl Hz)|]. specialize (N3 ltac:(lia)). lia. }
    pose proof (IHk ver next s1 N2 ltac:(lia) K) as (I1 & I2).
    destruct (rd_kids seek inflate f ver next s1) as [l s2]. cbn [snd] in *. split; [lia|exact I2].
Qed.

Lemma top_total f ver s : r_err s <> Some EFuel -> (1 <= f)%nat -> (r_err s = None -> (nrest s + 3 <= f)%nat) ->
  r_err (snd (rd_top seek inflate f ver s)) <> Some EFuel /\ r_err (snd (rd_top seek inflate f ver s)) <> None.
Proof.
  revert s; induction f as [|f IH]; intros s Hne Hf Hf'; [lia|].
  rewrite rd_top_step. unfold no_error. destruct (r_err s) as [e|] eqn:E.
  { cbn [snd]. rewrite E. split; [exact Hne|discriminate]. }
  specialize (Hf' eq_refl).
  destruct tree_total as [TN _].
  pose proof (TN f ver s E ltac:(lia)) as (N1 & N2 & N3 & N4).
  destruct (rd_node seek inflate f ver s) as [c s1]. cbn [snd] in *.
  assert (K : r_err s1 = None -> (nrest s1 + 3 <= f)%nat).
  { intros Hz. destruct (nrest s) as [|n]; [exfalso; exact (N4 eq_refl Hz)|]. specialize (N3 ltac:(lia)). lia. }
  specialize (IH s1 N2 ltac:(lia) K).
  destruct (rd_top seek inflate f ver s1) as [l s2]. exact IH.
Qed.

Theorem parse_total data : parse_fbx seek inflate data <> FFuel.
Proof.
  unfold parse_fbx. set (s0 := mkR data 0 None).
  destruct (eats_get0 21 s0) as (A1 & A2 & _). destruct (get 21 s0) as [m s1]. cbn [snd] in *.
  destruct (negb (beq m magic)).
  { destruct m as [|z m]; [discriminate|].
    repeat (match goal with |- context [match ?x with _ => _ end] => is_var x; destruct x end); discriminate. }
  destruct (eats_u 2 s1) as (B1 & B2 & _). destruct (rd_u 2 s1) as [x s2]. cbn [snd] in *.
  destruct (eats_u 4 s2) as (C1 & C2 & _). destruct (rd_u 4 s2) as [ver s3]. cbn [snd] in *.
  assert (N3 : (nrest s3 <= length data)%nat) by (change (length data) with (nrest s0); lia).
  assert (E3 : r_err s3 <> Some EFuel) by (apply C2, B2, A2; discriminate).
  pose proof (top_total (length data + 4) ver s3 E3 ltac:(lia) ltac:(lia)) as (T & _).
  destruct (rd_top _ _ _ _ s3) as [kids s4]. cbn [snd] in T.
  destruct (r_err s4) as [[| |]|]; try discriminate. congruence.
Qed.
End Reader.

Lemma beq_magic m : beq m magic = true -> m = magic.
Proof.
  assert (G : forall a b, beq a b = true -> a = b).
  { induction a as [|x a IH]; intros [|y b] H; cbn [beq] in H; try discriminate; [reflexivity|].
    apply andb_prop in H as (H1 & H2). apply Z.eqb_eq in H1. rewrite (IH b H2), H1. reflexivity. }
  apply G.
Qed.
Theorem short_rejected seek inflate data : (length data < 21)%nat -> parse_fbx seek inflate data = FErr.
Proof.
  intros H. unfold parse_fbx, get. cbn [r_err r_rest r_pos].
  destruct (Z.leb_spec 21 (blen data)) as [Hl|_]; [unfold blen in Hl; lia|]. reflexivity.
Qed.
