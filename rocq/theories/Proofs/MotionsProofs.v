(** Several motions in one glTF document. *)
From Coq Require Import String List ZArith Reals Bool Lia.
From Verif.Model Require Import Num NumR Vec GlbAnim GlbMotions.
From Verif.Spec Require Import GeomSpec AnimSpec MotionsSpec.
From Verif.Proofs Require Import AnimProofs AnimMorph.
Import ListNotations.
Local Open Scope list_scope.

(** *** All channels can be read *)
Definition good (s : astate) : Prop := exists es, plays s es.
Lemma good_write s d : good s -> good (fst (write s d)).
Proof. intros (es & P). exists es. apply plays_write. exact P. Qed.
Lemma write_at s d : nth_error (asAccs (fst (write s d))) (snd (write s d)) = Some d.
Proof. cbn [write fst snd asAccs]. rewrite nth_error_app2, Nat.sub_diag by lia. reflexivity. Qed.
Lemma write_keeps s d k x : nth_error (asAccs s) k = Some x -> nth_error (asAccs (fst (write s d))) k = Some x.
Proof. intros H. cbn [write fst asAccs]. apply nth_app_some. exact H. Qed.
Lemma good_add s k o ts d n p : good s -> nth_error (asAccs s) k = Some (AKeys ts) -> nth_error (asAccs s) o = Some d -> good (add_channel s k o n p).
Proof. intros (es & P) K O. eexists. exact (plays_add s es k o ts d n p P K O). Qed.
Lemma good_put s d k ts n p : good s -> nth_error (asAccs s) k = Some (AKeys ts) ->
  let '(s', out) := write s d in good (add_channel s' k out n p) /\ nth_error (asAccs (add_channel s' k out n p)) k = Some (AKeys ts).
Proof.
  intros G K. destruct (write s d) as [s' out] eqn:E. pose proof (good_write s d G) as G'. pose proof (write_at s d) as A. pose proof (write_keeps s d k _ K) as K'. rewrite E in G', A, K'. cbn [fst snd] in *.
  split; [exact (good_add s' k out ts d n p G' K' A)|exact K'].
Qed.
Definition keys_of (s : astate) (prev : option (list Z * nat)) (fs : list Z) : astate * nat :=
  match prev with Some (fs', k) => if keys_equal fs fs' then (s, k) else write s (AKeys (key_times fs)) | None => write s (AKeys (key_times fs)) end.
Lemma good_keys s prev fs : good s -> prev_ok s prev -> good (fst (keys_of s prev fs)) /\ nth_error (asAccs (fst (keys_of s prev fs))) (snd (keys_of s prev fs)) = Some (AKeys (seconds fs)).
Proof.
  intros G P. unfold keys_of. destruct prev as [[fs' k]|]; [destruct (keys_equal fs fs') eqn:Q|].
  - apply keys_equal_eq in Q. subst fs'. split; [exact G|]. exact (P _ _ eq_refl).
  - split; [apply good_write; exact G|exact (write_at s _)].
  - split; [apply good_write; exact G|exact (write_at s _)].
Qed.
Lemma good_step bones s prev c : good s -> prev_ok s prev -> good (fst (bone_step bones (s, prev) c)) /\ prev_ok (fst (bone_step bones (s, prev) c)) (snd (bone_step bones (s, prev) c)).
Proof.
  intros G P. unfold bone_step. destruct (node_of bones (bcTarget c)) as [n|]; [|split; assumption]. fold (keys_of s prev (bcFrames c)). destruct (good_keys s prev (bcFrames c) G P) as (G1 & K1).
  destruct (keys_of s prev (bcFrames c)) as [s1 k]. cbn [fst snd] in G1, K1.
  destruct (match bone_at bones n with Some b => _ | None => _ end) as [[off pos] qo]. cbv zeta. set (rots := map (rot_key off qo) (bcRots c)). set (s2 := if forallb is_identity rots then s1 else _).
  assert (A : good s2 /\ nth_error (asAccs s2) k = Some (AKeys (seconds (bcFrames c)))) by (unfold s2; destruct (forallb is_identity rots); [auto|exact (good_put s1 (ARots rots) k _ n PRotation G1 K1)]).
  destruct A as (G2 & K2). clearbody s2. set (s3 := if forallb is_zero (bcPoss c) then s2 else _).
  assert (B : good s3 /\ nth_error (asAccs s3) k = Some (AKeys (seconds (bcFrames c)))) by (unfold s3; destruct (forallb is_zero (bcPoss c)); [auto|exact (good_put s2 _ k _ n PTranslation G2 K2)]).
  destruct B as (G3 & K3). cbn [fst snd]. split; [exact G3|]. intros fs k' [= <- <-]. exact K3.
Qed.
Lemma good_bones bones bb : forall s prev, good s -> prev_ok s prev -> good (fst (fold_left (bone_step bones) bb (s, prev))).
Proof.
  induction bb as [|c bb IH]; intros s prev G P; [exact G|]. cbn [fold_left]. destruct (good_step bones s prev c G P) as (G' & P'). destruct (bone_step bones (s, prev) c) as [s' prev']. exact (IH s' prev' G' P').
Qed.
Lemma good_node nodes mm n s s' : good s -> morph_node nodes mm n s = Some s' -> good s'.
Proof.
  intros G. unfold morph_node. destruct mm as [|m0 mm]; [intros [= <-]; exact G|]. destruct (target_of nodes (mcTarget m0)) as [[[? ?] size]|]; [|discriminate]. cbv zeta.
  destruct (put_all _ _ _ _ _) as [t|]; [|discriminate]. pose proof (good_write s (AKeys (key_times (mcFrames m0))) G) as G1. pose proof (write_at s (AKeys (key_times (mcFrames m0)))) as K1. destruct (write s (AKeys (key_times (mcFrames m0)))) as [s1 k]. cbn [fst snd] in G1, K1.
  pose proof (good_put s1 (ABytes t) k _ (Z.of_nat n) PWeights G1 K1) as A. destruct (write s1 (ABytes t)) as [s2 out]. intros [= <-]. exact (proj1 A).
Qed.
Lemma good_morphs nodes morphs l : forall s s', good s -> fold_left (fun r n => match r with None => None | Some s => morph_node nodes (filter (on_node nodes n) morphs) n s end) l (Some s) = Some s' -> good s'.
Proof.
  assert (Nn : forall l, fold_left (fun r n => match r with None => None | Some s => morph_node nodes (filter (on_node nodes n) morphs) n s end) l None = None) by (intros l0; induction l0; [reflexivity|assumption]).
  induction l as [|n l IH]; intros s s' G E; cbn [fold_left] in E; [injection E as <-; exact G|]. destruct (morph_node nodes (filter (on_node nodes n) morphs) n s) as [s1|] eqn:E1; [|rewrite Nn in E; discriminate E].
  exact (IH s1 s' (good_node _ _ _ _ _ G E1) E).
Qed.

(** *** The accessors in front do not matter *)
Definition shift (k : nat) (p : nat * nat) : nat * nat := (k + fst p, k + snd p)%nat.
Definition Rel (pre : list adata) (s s' : astate) : Prop :=
  asAccs s' = pre ++ asAccs s /\ aaSamplers (asAnim s') = map (shift (length pre)) (aaSamplers (asAnim s)) /\ aaChannels (asAnim s') = aaChannels (asAnim s).
Lemma rel_write pre s s' d : Rel pre s s' -> Rel pre (fst (write s d)) (fst (write s' d)) /\ snd (write s' d) = (length pre + snd (write s d))%nat.
Proof. intros (A & B & C). cbn [write fst snd]. unfold Rel. cbn [asAccs asAnim]. rewrite A, <- app_assoc, app_length. auto. Qed.
Lemma rel_add pre s s' k o n p : Rel pre s s' -> Rel pre (add_channel s k o n p) (add_channel s' (length pre + k) (length pre + o) n p).
Proof. intros (A & B & C). unfold Rel, add_channel. cbn [asAccs asAnim aaSamplers aaChannels]. rewrite A, B, C, map_app, map_length. auto. Qed.
Lemma rel_put pre s s' d k n p : Rel pre s s' -> Rel pre (let '(s1, out) := write s d in add_channel s1 k out n p) (let '(s1, out) := write s' d in add_channel s1 (length pre + k) out n p).
Proof.
  intros H. destruct (rel_write pre s s' d H) as (A & B). destruct (write s d) as [s1 o1], (write s' d) as [s2 o2]. cbn [fst snd] in A, B. rewrite B. apply rel_add. exact A.
Qed.
Definition move_prev (k : nat) (prev : option (list Z * nat)) : option (list Z * nat) := option_map (fun p => (fst p, k + snd p)%nat) prev.
Lemma rel_keys pre s s' prev fs : Rel pre s s' -> Rel pre (fst (keys_of s prev fs)) (fst (keys_of s' (move_prev (length pre) prev) fs)) /\ snd (keys_of s' (move_prev (length pre) prev) fs) = (length pre + snd (keys_of s prev fs))%nat.
Proof.
  intros H. unfold keys_of, move_prev. destruct prev as [[fs' k]|]; cbn [option_map fst snd]; [|apply rel_write; exact H]. destruct (keys_equal fs fs'); [split; [exact H|reflexivity]|apply rel_write; exact H].
Qed.
Lemma rel_step pre bones s s' prev c : Rel pre s s' ->
  Rel pre (fst (bone_step bones (s, prev) c)) (fst (bone_step bones (s', move_prev (length pre) prev) c)) /\
  snd (bone_step bones (s', move_prev (length pre) prev) c) = move_prev (length pre) (snd (bone_step bones (s, prev) c)).
Proof.
  intros H. unfold bone_step. destruct (node_of bones (bcTarget c)) as [n|]; [|split; [exact H|reflexivity]].
  fold (keys_of s prev (bcFrames c)). fold (keys_of s' (move_prev (length pre) prev) (bcFrames c)). destruct (rel_keys pre s s' prev (bcFrames c) H) as (H1 & E1).
  destruct (keys_of s prev (bcFrames c)) as [s1 k]. destruct (keys_of s' (move_prev (length pre) prev) (bcFrames c)) as [s1' k']. cbn [fst snd] in H1, E1. subst k'.
  destruct (match bone_at bones n with Some b => _ | None => _ end) as [[off pos] qo]. cbv zeta. cbn [fst snd move_prev option_map]. split; [|reflexivity].
  assert (H2 : Rel pre (if forallb is_identity (map (rot_key off qo) (bcRots c)) then s1 else let '(s, out) := write s1 (ARots (map (rot_key off qo) (bcRots c))) in add_channel s k out n PRotation)
    (if forallb is_identity (map (rot_key off qo) (bcRots c)) then s1' else let '(s, out) := write s1' (ARots (map (rot_key off qo) (bcRots c))) in add_channel s (length pre + k) out n PRotation)) by (destruct (forallb is_identity _); [exact H1|apply rel_put; exact H1]).
  destruct (forallb is_zero (bcPoss c)); [exact H2|apply rel_put; exact H2].
Qed.
Lemma rel_bones pre bones bb : forall s s' prev, Rel pre s s' -> Rel pre (fst (fold_left (bone_step bones) bb (s, prev))) (fst (fold_left (bone_step bones) bb (s', move_prev (length pre) prev))).
Proof.
  induction bb as [|c bb IH]; intros s s' prev H; [exact H|]. cbn [fold_left]. destruct (rel_step pre bones s s' prev c H) as (A & B). destruct (bone_step bones (s, prev) c) as [s1 p1], (bone_step bones (s', move_prev (length pre) prev) c) as [s2 p2]. cbn [fst snd] in A, B. subst p2. apply IH. exact A.
Qed.
Definition orel (pre : list adata) (a b : option astate) : Prop := match a, b with Some s, Some s' => Rel pre s s' | None, None => True | _, _ => False end.
Lemma rel_node pre nodes mm n s s' : Rel pre s s' -> orel pre (morph_node nodes mm n s) (morph_node nodes mm n s').
Proof.
  intros H. unfold morph_node. destruct mm as [|m0 mm]; [exact H|]. destruct (target_of nodes (mcTarget m0)) as [[[? ?] size]|]; [|exact I]. cbv zeta. destruct (put_all _ _ _ _ _) as [t|]; [|exact I].
  destruct (rel_write pre s s' (AKeys (key_times (mcFrames m0))) H) as (A & B). destruct (write s (AKeys (key_times (mcFrames m0)))) as [s1 k], (write s' (AKeys (key_times (mcFrames m0)))) as [s1' k']. cbn [fst snd] in A, B. subst k'.
  pose proof (rel_put pre s1 s1' (ABytes t) k (Z.of_nat n) PWeights A) as P. destruct (write s1 (ABytes t)) as [s2 o], (write s1' (ABytes t)) as [s2' o']. exact P.
Qed.
Lemma rel_morphs pre nodes morphs s s' : Rel pre s s' -> orel pre (add_morph_channels nodes morphs s) (add_morph_channels nodes morphs s').
Proof.
  intros H. unfold add_morph_channels. assert (O : orel pre (Some s) (Some s')) by exact H. revert O. generalize (Some s) (Some s'). generalize (seq 0 (length nodes)). intros l. induction l as [|n l IH]; intros a b O; [exact O|]. cbn [fold_left]. apply IH.
  destruct a as [a|], b as [b|]; try contradiction O; [|exact I]. apply rel_node. exact O.
Qed.
Lemma rel_read pre s s' ch : Rel pre s s' -> read_channel s' ch = read_channel s ch.
Proof.
  intros (A & B & C). destruct ch as [[k n] p]. unfold read_channel. rewrite A, B. destruct (nth_error (aaSamplers (asAnim s)) k) as [[i o]|] eqn:E.
  - rewrite (map_nth_error _ _ _ E). unfold shift. cbn [fst snd]. rewrite !nth_error_app2 by lia. replace (length pre + i - length pre)%nat with i by lia. replace (length pre + o - length pre)%nat with o by lia. reflexivity.
  - assert (nth_error (map (shift (length pre)) (aaSamplers (asAnim s))) k = None) as ->; [|reflexivity]. apply nth_error_None. rewrite map_length. apply nth_error_None. exact E.
Qed.
Lemma rel_plays pre s s' es : Rel pre s s' -> plays s es -> plays s' es.
Proof.
  intros H P. unfold plays in *. destruct H as (A & B & C). rewrite C, <- P. apply map_ext. intros ch. apply (rel_read pre). split; [|split]; assumption.
Qed.

(** *** Documents *)
Lemma plays_longer accs x a es : plays (mkAS accs a) es -> plays (mkAS (accs ++ x) a) es.
Proof.
  unfold plays. cbn [asAnim]. intros H. rewrite <- H. apply map_ext_in. intros ch Hc. assert (E : exists e, read_channel (mkAS accs a) ch = Some e).
  { assert (X : In (read_channel (mkAS accs a) ch) (map Some es)) by (rewrite <- H; apply in_map; exact Hc). apply in_map_iff in X as (e & <- & _). exists e. reflexivity. }
  destruct E as [e E]. rewrite E. apply (read_ext (mkAS accs a)); [|exact E]. split; cbn; [eexists; reflexivity|exists []; rewrite app_nil_r; reflexivity].
Qed.
Lemma start_rel accs : Rel accs (mkAS [] (mkAA [] [])) (mkAS accs (mkAA [] [])).
Proof. unfold Rel. cbn [asAccs asAnim aaSamplers aaChannels map]. rewrite app_nil_r. auto. Qed.
Definition run_alone bones nodes (m : motion) (accs : list adata) : option astate := add_morph_channels nodes (moMorphs m) (add_bone_channels bones (moBones m) (mkAS accs (mkAA [] []))).
Lemma run_rel bones nodes m accs : orel accs (run_alone bones nodes m []) (run_alone bones nodes m accs).
Proof. unfold run_alone. apply rel_morphs. exact (rel_bones accs bones (moBones m) _ _ None (start_rel accs)). Qed.
Lemma run_good bones nodes m accs s : run_alone bones nodes m accs = Some s -> good s.
Proof. intros E. refine (good_morphs nodes (moMorphs m) _ _ s _ E). apply good_bones; [exists []; reflexivity|discriminate]. Qed.
Lemma plays_nil s es : plays s es -> (es = [] <-> aaChannels (asAnim s) = []).
Proof. unfold plays. intros P. destruct es, (aaChannels (asAnim s)); try discriminate P; split; congruence. Qed.
Lemma add_one bones nodes g m g' l : add_animation bones nodes g m = Some g' -> shows g l ->
  exists l1 x, alone bones nodes m l1 /\ shows g' (l ++ l1) /\ gdAccs g' = gdAccs g ++ x /\ exists y, gdAnims g' = gdAnims g ++ y.
Proof.
  unfold add_animation. fold (run_alone bones nodes m (gdAccs g)). pose proof (run_rel bones nodes m (gdAccs g)) as O. destruct (run_alone bones nodes m (gdAccs g)) as [s|] eqn:E; [|discriminate].
  intros [= <-] Sh. destruct (run_alone bones nodes m []) as [s0|] eqn:E0; [|contradiction O]. destruct (run_good _ _ _ _ _ E0) as (es & P0). pose proof (rel_plays _ _ _ _ O P0) as P. cbn [orel] in O.
  assert (A0 : add_animation bones nodes no_doc m = Some (mkGDoc (asAccs s0) (match aaChannels (asAnim s0) with [] => [] | _ => [(moName m, asAnim s0)] end))).
  { unfold add_animation. cbn [no_doc gdAccs gdAnims]. fold (run_alone bones nodes m []). rewrite E0. destruct (aaChannels (asAnim s0)); reflexivity. }
  destruct O as (OA & _ & OC). assert (Old : Forall2 (fun a e => fst a = fst e /\ plays (mkAS (asAccs s) (snd a)) (snd e)) (gdAnims g) l).
  { unfold shows in Sh. clear - Sh OA. induction Sh as [|a e la le (N & P) F IH]; constructor; [split; [exact N|]|exact IH]. rewrite OA. apply plays_longer. exact P. }
  rewrite OC. destruct (aaChannels (asAnim s0)) as [|c cs] eqn:Ec.
  - exists [], (asAccs s0). split; [|split; [|split; [exact OA|exists []; symmetry; apply app_nil_r]]].
    + eexists. split; [exact A0|]. split; [constructor|]. split; [cbn; lia|constructor].
    + rewrite app_nil_r. exact Old.
  - exists [(moName m, es)], (asAccs s0). assert (Pe : es <> []) by (intros X; apply (proj1 (plays_nil _ _ P0)) in X; congruence). split; [|split; [|split; [exact OA|eexists; reflexivity]]].
    + eexists. split; [exact A0|]. split; [|split; [cbn; lia|repeat constructor; exact Pe]]. constructor; [|constructor]. cbn [fst snd gdAccs]. split; [reflexivity|]. destruct s0. exact P0.
    + apply Forall2_app; [exact Old|]. constructor; [|constructor]. cbn [fst snd gdAccs]. split; [reflexivity|]. destruct s. exact P.
Qed.
Theorem motions_shown bones nodes ms : forall g g' l, add_animations bones nodes ms g = Some g' -> shows g l ->
  exists ls, Forall2 (alone bones nodes) ms ls /\ shows g' (l ++ concat ls) /\ (exists x, gdAccs g' = gdAccs g ++ x) /\ exists y, gdAnims g' = gdAnims g ++ y.
Proof.
  induction ms as [|m ms IH]; intros g g' l E Sh; cbn [add_animations] in E.
  - injection E as <-. exists []. cbn [concat]. rewrite app_nil_r. split; [constructor|]. split; [exact Sh|]. split; exists []; symmetry; apply app_nil_r.
  - destruct (add_animation bones nodes g m) as [g1|] eqn:E1; [|discriminate]. destruct (add_one _ _ _ _ _ _ E1 Sh) as (l1 & x & A & Sh1 & X & y & Y). destruct (IH _ _ _ E Sh1) as (ls & F & Sh2 & (x2 & X2) & (y2 & Y2)).
    exists (l1 :: ls). cbn [concat]. rewrite app_assoc. split; [constructor; assumption|]. split; [exact Sh2|]. split; [exists (x ++ x2); rewrite X2, X, app_assoc; reflexivity|exists (y ++ y2); rewrite Y2, Y, app_assoc; reflexivity].
Qed.
(** It fails only where a motion alone fails. *)
Theorem motions_fail bones nodes ms : forall g, add_animations bones nodes ms g = None <-> Exists (fun m => add_animation bones nodes no_doc m = None) ms.
Proof.
  assert (One : forall g m, add_animation bones nodes g m = None <-> add_animation bones nodes no_doc m = None).
  { intros g m. unfold add_animation. fold (run_alone bones nodes m (gdAccs g)). fold (run_alone bones nodes m (gdAccs no_doc)). cbn [no_doc gdAccs]. pose proof (run_rel bones nodes m (gdAccs g)) as O. destruct (run_alone bones nodes m []), (run_alone bones nodes m (gdAccs g)); try contradiction O; split; congruence. }
  induction ms as [|m ms IH]; intros g; cbn [add_animations]; [split; [discriminate|intros X; inversion X]|]. destruct (add_animation bones nodes g m) as [g1|] eqn:E.
  - rewrite IH. split; [intros X; right; exact X|intros X; inversion X as [? ? Y|? ? Y]; subst; [apply (One g) in Y; congruence|exact Y]].
  - split; [intros _; left; apply (One g); exact E|reflexivity].
Qed.
