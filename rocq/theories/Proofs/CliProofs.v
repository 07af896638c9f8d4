(** Proofs about the command line options (C52, C79). *)
From Coq Require Import String Ascii List ZArith Bool Lia.
From Verif.Model Require Import Num Vec Mqo MqoDoc Cli.
From Verif.Spec Require Import GltfSpec CliSpec.
From Verif.Proofs Require Import Mqo2MmdProofs MorphProofs.
Import ListNotations.
Local Open Scope string_scope.
Local Open Scope list_scope.

(** ** Words *)
Lemma without_cons c d s : without c (String d s) <-> d <> c /\ without c s.
Proof. unfold without. cbn. split; [intros H; split; intros E; apply H; [left; exact E | right; exact E] | intros [A B] [E|E]; [exact (A E)|exact (B E)]]. Qed.
Lemma split_word c s : without c s -> split c s = [s].
Proof.
  induction s as [|d s IH]; intros H; [reflexivity|]. apply without_cons in H. destruct H as [A B]. cbn [split].
  destruct (Ascii.eqb_spec d c) as [E|_]; [contradiction|]. rewrite (IH B). reflexivity.
Qed.
Lemma split_app c s t : without c s -> split c (s ++ String c t)%string = s :: split c t.
Proof.
  induction s as [|d s IH]; intros H.
  - cbn [String.append split]. rewrite Ascii.eqb_refl. reflexivity.
  - apply without_cons in H. destruct H as [A B]. cbn [String.append split]. destruct (Ascii.eqb_spec d c) as [E|_]; [contradiction|]. rewrite (IH B). reflexivity.
Qed.
Lemma split_list ws : ws <> [] -> Forall (without ",") ws -> split "," (comma_list ws) = ws.
Proof.
  induction ws as [|w ws IH]; intros N F; [contradiction|]. inversion F as [|? ? Fw Fr]; subst. destruct ws as [|v ws].
  - cbn. apply split_word. exact Fw.
  - change (comma_list (w :: v :: ws)) with (w ++ String "," (comma_list (v :: ws)))%string. rewrite split_app by exact Fw.
    f_equal. apply IH; [discriminate | exact Fr].
Qed.
Lemma split2_app c s t : without c s -> split2 c (s ++ String c t)%string = Some (s, t).
Proof.
  induction s as [|d s IH]; intros H.
  - cbn [String.append split2]. rewrite Ascii.eqb_refl. reflexivity.
  - apply without_cons in H. destruct H as [A B]. cbn [String.append split2]. destruct (Ascii.eqb_spec d c) as [E|_]; [contradiction|]. rewrite (IH B). reflexivity.
Qed.
Lemma split2_none c s : without c s -> split2 c s = None.
Proof.
  induction s as [|d s IH]; intros H; [reflexivity|]. apply without_cons in H. destruct H as [A B]. cbn [split2].
  destruct (Ascii.eqb_spec d c) as [E|_]; [contradiction|]. rewrite (IH B). reflexivity.
Qed.

(** ** Subtrees as runs *)
Lemma nearest ds i di : nth_error ds i = Some di -> forall n, (n <= i)%nat ->
  (exists p, (i - n <= p)%nat /\ tree_parent ds i p) \/ (forall j dj, (i - n <= j < i)%nat -> nth_error ds j = Some dj -> (di <= dj)%Z).
Proof.
  intros Hi. induction n as [|n IH]; intros L.
  - right. intros j dj Hj. lia.
  - destruct (IH ltac:(lia)) as [[p [Hp P]]|H]; [left; exists p; split; [lia|exact P]|].
    destruct (nth_error ds (i - S n)) as [d|] eqn:Ed.
    + destruct (Z.ltb_spec d di) as [Lt|Ge].
      * left. exists (i - S n)%nat. split; [lia|]. exists di, d. repeat split; try assumption; try lia. intros j dj Hj Ej. apply (H j dj); [lia|exact Ej].
      * right. intros j dj Hj Ej. destruct (Nat.eq_dec j (i - S n)) as [->|Nj]; [rewrite Ed in Ej; injection Ej as <-; lia|]. apply (H j dj); [lia|exact Ej].
    + apply nth_error_None in Ed. assert (i < length ds)%nat by (apply nth_error_Some; rewrite Hi; discriminate). lia.
Qed.
Definition run (ds : list Z) (r i : nat) : Prop :=
  (r <= i)%nat /\ forall k dk dr, (r < k <= i)%nat -> nth_error ds r = Some dr -> nth_error ds k = Some dk -> (dr < dk)%Z.
Lemma subtree_run ds r i : in_subtree ds r i -> run ds r i.
Proof.
  induction 1 as [|i p (di & dp & Ei & Ep & Lp & Ld & Hj) _ [Lr IH]].
  - split; [lia|]. intros k dk dr Hk. lia.
  - split; [lia|]. intros k dk dr Hk Er Ek. assert (Q : (dr <= dp)%Z).
    { destruct (Nat.eq_dec r p) as [->|Nr]; [rewrite Ep in Er; injection Er as ->; lia|]. specialize (IH p dp dr ltac:(lia) Er Ep). lia. }
    destruct (Nat.lt_ge_cases p k) as [G|G].
    + destruct (Nat.eq_dec k i) as [->|Nk]; [rewrite Ei in Ek; injection Ek as <-; lia|]. specialize (Hj k dk ltac:(lia) Ek). lia.
    + apply (IH k dk dr); [lia|exact Er|exact Ek].
Qed.
Lemma run_subtree ds r : forall i, (i < length ds)%nat -> run ds r i -> in_subtree ds r i.
Proof.
  induction i as [i IH] using lt_wf_ind. intros Li [Lr H]. destruct (Nat.eq_dec r i) as [->|Nr]; [constructor|].
  destruct (nth_error ds i) as [di|] eqn:Ei; [|apply nth_error_None in Ei; lia].
  destruct (nth_error ds r) as [dr|] eqn:Er; [|apply nth_error_None in Er; lia].
  destruct (nearest ds i di Ei (i - r) ltac:(lia)) as [[p [Hp P]]|G].
  - apply (sub_child ds r i p P). destruct P as (a & b & A & B & L & _). apply IH; [lia|lia|]. split; [lia|]. intros k dk dr' Hk E1 E2. apply (H k); [lia|rewrite <- Er; exact E1|exact E2].
  - specialize (G r dr ltac:(lia) Er). specialize (H i di dr ltac:(lia) eq_refl Ei). lia.
Qed.

(** ** -hide *)
Lemma nth_error_ext_map {A B} (f : A -> B) (l1 l2 : list A) : length l1 = length l2 -> (forall j, option_map f (nth_error l1 j) = option_map f (nth_error l2 j)) -> map f l1 = map f l2.
Proof.
  revert l2. induction l1 as [|a l1 IH]; intros [|b l2] L H; try discriminate; [reflexivity|]. cbn. f_equal; [specialize (H O); cbn in H; injection H as H; exact H|]. apply IH; [cbn in L; lia|]. intros j. exact (H (S j)).
Qed.
Section Hide.
Context {T : Type} {N : Num T}.
Variable glob : string -> string -> bool.

Definition shown (o : object T) (b : bool) : object T := set_visible o b.
Lemma hide_run_nth d (os : list (object T)) : forall k o, nth_error os k = Some o -> exists b,
  nth_error (hide_run d os) k = Some (set_visible o (oVisible o && b)) /\
  (b = false <-> forall j oj, (j <= k)%nat -> nth_error os j = Some oj -> (d < oDepth oj)%Z).
Proof.
  induction os as [|x os IH]; intros k o E; [destruct k; discriminate|]. cbn [hide_run]. destruct (Z.ltb_spec d (oDepth x)) as [L|G].
  - destruct k as [|k]; cbn in E |- *.
    + injection E as ->. exists false. split; [rewrite andb_false_r; reflexivity|]. split; [|reflexivity]. intros _ [|j] oj Hj Ej; [injection Ej as <-; exact L|lia].
    + destruct (IH k o E) as (b & A & B). exists b. split; [exact A|]. rewrite B. split; intros H j oj Hj Ej.
      * destruct j as [|j]; [injection Ej as <-; exact L|]. apply (H j oj); [lia|exact Ej].
      * apply (H (S j) oj); [lia|exact Ej].
  - exists true. split; [rewrite E, andb_true_r; destruct o; reflexivity|]. split; [discriminate|]. intros H. specialize (H O x ltac:(lia) eq_refl). lia.
Qed.
Lemma hide_run_length d (os : list (object T)) : length (hide_run d os) = length os.
Proof. induction os as [|x os IH]; [reflexivity|]. cbn [hide_run]. destruct (_ <? _)%Z; [|reflexivity]. cbn. rewrite IH. reflexivity. Qed.
Lemma hide_step_length ps (os : list (object T)) idx : length (hide_step glob ps os idx) = length os.
Proof.
  unfold hide_step. rewrite app_length. rewrite <- (firstn_skipn idx os) at 3. rewrite app_length. f_equal. destruct (skipn idx os) as [|o r]; [reflexivity|].
  destruct (matches _ _ _); [|reflexivity]. cbn. rewrite hide_run_length. reflexivity.
Qed.
Lemma vis_id (o : object T) : set_visible o (oVisible o && true) = o.
Proof. rewrite andb_true_r. destruct o; reflexivity. Qed.
Lemma hide_step_nth ps (os : list (object T)) idx x : nth_error os idx = Some x -> forall k o, nth_error os k = Some o -> exists b,
  nth_error (hide_step glob ps os idx) k = Some (set_visible o (oVisible o && b)) /\
  (b = false <-> matches glob ps (oName x) = true /\ run (map oDepth os) idx k).
Proof.
  intros Ex k o Ek. unfold hide_step. assert (Li : (idx < length os)%nat) by (apply nth_error_Some; rewrite Ex; discriminate).
  assert (Lf : length (firstn idx os) = idx) by (rewrite firstn_length; lia).
  assert (Es : skipn idx os = x :: skipn (S idx) os).
  { clear - Ex. revert os Ex. induction idx as [|i IH]; intros [|a os] E; cbn in E; try discriminate; [injection E as ->; reflexivity|]. cbn [skipn]. apply (IH os E). }
  rewrite Es. destruct (Nat.lt_ge_cases k idx) as [L|G].
  - exists true. rewrite vis_id. split; [rewrite nth_error_app1 by lia; rewrite <- Ek; rewrite <- (firstn_skipn idx os) at 2; rewrite nth_error_app1 by lia; reflexivity|].
    split; [discriminate|]. intros [_ [Q _]]. lia.
  - rewrite nth_error_app2 by lia. rewrite Lf. destruct (matches glob ps (oName x)).
    + destruct (Nat.eq_dec k idx) as [->|Nk].
      * rewrite Ex in Ek. injection Ek as <-. replace (idx - idx)%nat with O by lia. cbn. exists false. rewrite andb_false_r. split; [reflexivity|]. split; [|reflexivity]. intros _. split; [reflexivity|]. split; [lia|]. intros; lia.
      * replace (k - idx)%nat with (S (k - S idx)) by lia. cbn [nth_error].
        assert (Ek' : nth_error (skipn (S idx) os) (k - S idx) = Some o).
        { rewrite <- Ek. rewrite <- (firstn_skipn (S idx) os) at 2. rewrite nth_error_app2 by (rewrite firstn_length; lia). rewrite firstn_length. f_equal. lia. }
        destruct (hide_run_nth (oDepth x) _ _ _ Ek') as (b & A & B). exists b. split; [exact A|]. rewrite B. split.
        -- intros H. split; [reflexivity|]. split; [lia|]. intros j dj dr Hj Er Ej. rewrite nth_error_map, Ex in Er. injection Er as <-. rewrite nth_error_map in Ej.
           destruct (nth_error os j) as [oj|] eqn:Eo; [|discriminate]. injection Ej as <-. apply (H (j - S idx)%nat oj); [lia|].
           rewrite <- Eo. rewrite <- (firstn_skipn (S idx) os) at 2. rewrite nth_error_app2 by (rewrite firstn_length; lia). rewrite firstn_length. f_equal. lia.
        -- intros [_ [_ H]] j oj Hj Ej. apply (H (j + S idx)%nat); [lia| |].
           ++ rewrite nth_error_map, Ex. reflexivity.
           ++ rewrite nth_error_map. rewrite <- (firstn_skipn (S idx) os). rewrite nth_error_app2 by (rewrite firstn_length; lia). rewrite firstn_length. replace (j + S idx - Nat.min (S idx) (length os))%nat with j by lia. rewrite Ej. reflexivity.
    + exists true. rewrite vis_id. split; [|split; [discriminate|intros [E _]; discriminate]]. rewrite <- Es, <- Ek. rewrite <- (firstn_skipn idx os) at 2. rewrite nth_error_app2 by lia. rewrite Lf. reflexivity.
Qed.

Lemma hide_loop ps (os : list (object T)) : forall n, (n <= length os)%nat ->
  let os' := fold_left (hide_step glob ps) (seq 0 n) os in length os' = length os /\
  forall k o, nth_error os k = Some o -> exists b, nth_error os' k = Some (set_visible o (oVisible o && b)) /\
  (b = false <-> exists r x, (r < n)%nat /\ nth_error os r = Some x /\ matches glob ps (oName x) = true /\ run (map oDepth os) r k).
Proof.
  induction n as [|n IH]; intros L; cbn zeta.
  - split; [reflexivity|]. intros k o E. exists true. rewrite vis_id. split; [exact E|]. split; [discriminate|]. intros (r & x & Hr & _). lia.
  - destruct (IH ltac:(lia)) as [A B]. rewrite seq_S, fold_left_app. cbn [fold_left Nat.add]. set (os1 := fold_left _ _ _) in *. cbn zeta in A. split; [rewrite hide_step_length; exact A|].
    intros k o E. destruct (B k o E) as (b & B1 & B2). destruct (nth_error os n) as [x|] eqn:Ex; [|apply nth_error_None in Ex; lia].
    destruct (B n x Ex) as (bx & Bx & _). destruct (hide_step_nth ps os1 n _ Bx k _ B1) as (c & C1 & C2).
    exists (b && c). split.
    { rewrite C1. f_equal. destruct o; cbn. rewrite andb_assoc. reflexivity. }
    assert (M : map oDepth os1 = map oDepth os).
    { apply nth_error_ext_map; [exact A|]. intros j. destruct (nth_error os j) as [y|] eqn:Ey.
      - destruct (B j y Ey) as (by_ & By & _). rewrite By. destruct y; reflexivity.
      - apply nth_error_None in Ey. assert (H : nth_error os1 j = None) by (apply nth_error_None; lia). rewrite H. reflexivity. }
    rewrite M in C2. change (oName (set_visible x (oVisible x && bx))) with (oName x) in C2. rewrite andb_false_iff, B2, C2. split.
    + intros [(r & y & Hr & Q)|[Q1 Q2]]; [exists r, y; split; [lia|exact Q]|exists n, x; split; [lia|]; split; [exact Ex|split; assumption]].
    + intros (r & y & Hr & Ey & Q1 & Q2). destruct (Nat.eq_dec r n) as [->|Nr].
      * right. rewrite Ex in Ey. injection Ey as <-. split; assumption.
      * left. exists r, y. split; [lia|]. split; [exact Ey|]. split; assumption.
Qed.
End Hide.

(** ** -chparent *)
Section Parents.
Context {T : Type} {N : Num T}.
Notation bones_t := (list (bone T)).
Lemma named_iff (bones : bones_t) n i : bone_named bones n = Some i <-> names_bone bones n i.
Proof.
  unfold bone_named. split.
  - intros E. destruct (last_index_Some _ _ _ E) as (a & x & b & -> & <- & Q & F). split.
    + exists x. split; [rewrite nth_error_app2, Nat.sub_diag by lia; reflexivity|]. apply String.eqb_eq. exact Q.
    + intros j y L Ey. rewrite nth_error_app2 in Ey by lia. destruct (j - length a)%nat as [|k] eqn:Ej; [lia|]. cbn in Ey. apply nth_error_In in Ey.
      pose proof (proj1 (Forall_forall _ _) F y Ey) as Q'. cbn in Q'. apply String.eqb_neq. exact Q'.
  - intros [(b & Eb & Nb) H]. destruct (last_index (fun b => String.eqb (bName b) n) bones) as [k|] eqn:E.
    + destruct (last_index_Some _ _ _ E) as (a & x & r & -> & <- & Q & F). f_equal. destruct (Nat.lt_trichotomy i (length a)) as [L|[L|L]]; [|symmetry; exact L|].
      * exfalso. apply (H (length a) x); [exact L|rewrite nth_error_app2, Nat.sub_diag by lia; reflexivity|]. apply String.eqb_eq. exact Q.
      * exfalso. rewrite nth_error_app2 in Eb by lia. destruct (i - length a)%nat as [|m] eqn:Em; [lia|]. cbn in Eb. apply nth_error_In in Eb.
        pose proof (proj1 (Forall_forall _ _) F b Eb) as Q'. cbn in Q'. apply String.eqb_neq in Q'. contradiction.
    + pose proof (proj1 (last_index_None _ _) E) as F. apply nth_error_In in Eb. pose proof (proj1 (Forall_forall _ _) F b Eb) as Q'. cbn in Q'. apply String.eqb_neq in Q'. contradiction.
Qed.
Lemma named_none (bones : bones_t) n : bone_named bones n = None <-> forall i, ~ names_bone bones n i.
Proof.
  split.
  - intros E i H. apply named_iff in H. congruence.
  - intros H. destruct (bone_named bones n) as [i|] eqn:E; [|reflexivity]. apply named_iff in E. exfalso. exact (H i E).
Qed.
Definition upd (bones : bones_t) i p : bones_t := list_upd bones i (fun b => set_parent b p).
Lemma upd_nth bones i p k b : nth_error bones k = Some b -> nth_error (upd bones i p) k = Some (if Nat.eqb k i then set_parent b p else b).
Proof. intros E. unfold upd. rewrite list_upd_nth, E. destruct (Nat.eqb k i); reflexivity. Qed.
Lemma upd_names bones i p n k : names_bone (upd bones i p) n k <-> names_bone bones n k.
Proof.
  assert (L : length (upd bones i p) = length bones) by apply list_upd_length.
  assert (Q : forall j, option_map bName (nth_error (upd bones i p) j) = option_map bName (nth_error bones j)).
  { intros j. unfold upd. rewrite list_upd_nth. destruct (Nat.eqb j i), (nth_error bones j); reflexivity. }
  unfold names_bone. split; intros [(b & Eb & Nb) H]; (split; [specialize (Q k); rewrite Eb in Q; cbn in Q|intros j b' Hj Ej; specialize (Q j); rewrite Ej in Q; cbn in Q]).
  - destruct (nth_error bones k) as [b0|]; [|discriminate]. exists b0. split; [reflexivity|]. injection Q as Q. congruence.
  - destruct (nth_error (upd bones i p) j) as [b0|] eqn:E0; [|discriminate]. injection Q as Q. rewrite <- Q. apply (H j b0 Hj E0).
  - destruct (nth_error (upd bones i p) k) as [b0|]; [|discriminate]. exists b0. split; [reflexivity|]. injection Q as Q. congruence.
  - destruct (nth_error bones j) as [b0|] eqn:E0; [|discriminate]. injection Q as Q. rewrite Q. apply (H j b0 Hj E0).
Qed.
Definition pair_text (pr : string * string) : string := (fst pr ++ ":" ++ snd pr)%string.
Definition pair_ok (pr : string * string) : Prop := without ":" (fst pr) /\ without ":" (snd pr).

Lemma split_pair pr : pair_ok pr -> split ":" (pair_text pr) = [fst pr; snd pr].
Proof. intros [A B]. unfold pair_text. change (":" ++ snd pr)%string with (String ":" (snd pr)). rewrite split_app by exact A. rewrite split_word by exact B. reflexivity. Qed.

Lemma ch_parents_done : forall pairs (bones : bones_t), Forall pair_ok pairs ->
  (forall pr i, In pr pairs -> names_bone bones (fst pr) i -> exists j, names_bone bones (snd pr) j) ->
  exists bones', ch_parents (map pair_text pairs) bones = Done bones' /\ length bones' = length bones /\
  forall i b, nth_error bones i = Some b -> exists b', nth_error bones' i = Some b' /\ same_but_parent b b' /\
    (forall c p, last_such (fun pr => names_bone bones (fst pr) i) pairs (c, p) -> exists j pb, names_bone bones p j /\ nth_error bones j = Some pb /\ bParent b' = bID pb) /\
    ((forall pr, In pr pairs -> ~ names_bone bones (fst pr) i) -> b' = b).
Proof.
  induction pairs as [|pr pairs IH]; intros bones F K.
  - exists bones. cbn. split; [reflexivity|]. split; [reflexivity|]. intros i b E. exists b. split; [exact E|]. split; [repeat split|]. split; [|reflexivity]. intros c p (a & r & Q & _). destruct a; discriminate.
  - inversion F as [|? ? Fp Fr]; subst. cbn [map ch_parents]. rewrite (split_pair pr Fp). destruct (bone_named bones (fst pr)) as [i0|] eqn:E0.
    + pose proof (proj1 (named_iff _ _ _) E0) as N0. destruct (K pr i0 (or_introl eq_refl) N0) as [j Nj]. pose proof (proj2 (named_iff _ _ _) Nj) as Ej. rewrite Ej.
      destruct Nj as [(pb & Eb & Hb) Hj]. rewrite Eb. fold (upd bones i0 (bID pb)).
      destruct (IH (upd bones i0 (bID pb)) Fr) as (bones' & D & Ln & H).
      { intros pr' i Hi Hn. apply (proj1 (upd_names _ _ _ _ _)) in Hn. destruct (K pr' i (or_intror Hi) Hn) as [j' Hj']. exists j'. apply (proj2 (upd_names _ _ _ _ _)). exact Hj'. }
      exists bones'. split; [exact D|]. split; [rewrite Ln; apply list_upd_length|]. intros i b E. destruct (H i _ (upd_nth bones i0 (bID pb) i b E)) as (b' & A & B & C & G).
      exists b'. split; [exact A|]. split.
      { destruct (Nat.eqb i i0); exact B. }
      split.
      * intros c p (a & r & Q & P & R). destruct a as [|x a]; injection Q as -> Q.
        -- subst r. cbn in P. assert (i = i0) by (apply named_iff in P; cbn [fst] in E0; congruence). subst i0. exists j, pb. split; [split; [exists pb; split; assumption|exact Hj]|]. split; [exact Eb|].
           rewrite G; [rewrite Nat.eqb_refl; reflexivity|]. intros pr' Hp Hn. apply (proj1 (upd_names _ _ _ _ _)) in Hn. exact (proj1 (Forall_forall _ _) R pr' Hp Hn).
        -- destruct (C c p) as (j' & pb' & C1 & C2 & C3).
           { exists a, r. split; [exact Q|]. split; [apply (proj2 (upd_names _ _ _ _ _)); exact P|]. apply Forall_forall. intros y Hy Hn. apply (proj1 (upd_names _ _ _ _ _)) in Hn. exact (proj1 (Forall_forall _ _) R y Hy Hn). }
           apply (proj1 (upd_names _ _ _ _ _)) in C1. destruct (nth_error bones j') as [pb''|] eqn:Ep.
           ++ exists j', pb''. split; [exact C1|]. split; [exact Ep|]. rewrite (upd_nth bones i0 (bID pb) j' pb'' Ep) in C2. injection C2 as C2. rewrite C3, <- C2. destruct (Nat.eqb j' i0); reflexivity.
           ++ exfalso. apply nth_error_None in Ep. assert (Z : nth_error (upd bones i0 (bID pb)) j' = None) by (apply nth_error_None; unfold upd; rewrite list_upd_length; exact Ep). congruence.
      * intros Hn. assert (i <> i0) by (intros ->; apply (Hn pr (or_introl eq_refl)); exact N0). rewrite G; [destruct (Nat.eqb_spec i i0); [contradiction|reflexivity]|].
        intros pr' Hp Hn'. apply (proj1 (upd_names _ _ _ _ _)) in Hn'. exact (Hn pr' (or_intror Hp) Hn').
    + destruct (IH bones Fr) as (bones' & D & Ln & H); [intros pr' i Hi; apply K; right; exact Hi|]. exists bones'. split; [exact D|]. split; [exact Ln|]. intros i b E. destruct (H i b E) as (b' & A & B & C & G). exists b'. split; [exact A|]. split; [exact B|]. split.
      * intros c p (a & r & Q & P & R). destruct a as [|x a]; injection Q as -> Q; [|apply (C c p); exists a, r; split; [exact Q|split; [exact P|exact R]]].
        apply named_none with (i := i) in E0. contradiction.
      * intros Hn. apply G. intros pr' Hp. apply Hn. right. exact Hp.
Qed.
Lemma ch_parents_crash : forall pairs (bones : bones_t), Forall pair_ok pairs ->
  forall pr i, In pr pairs -> names_bone bones (fst pr) i -> (forall j, ~ names_bone bones (snd pr) j) -> ch_parents (map pair_text pairs) bones = Crash.
Proof.
  induction pairs as [|q pairs IH]; intros bones F pr i Hi Hn K; [contradiction|].
  inversion F as [|? ? Fp Fr]; subst. cbn [map ch_parents]. rewrite (split_pair q Fp). destruct (bone_named bones (fst q)) as [i0|] eqn:E0.
  - destruct (bone_named bones (snd q)) as [j|] eqn:Ej; [|reflexivity]. destruct (proj1 (named_iff _ _ _) Ej) as [(pb & Eb & Hb) Hj]. rewrite Eb. fold (upd bones i0 (bID pb)).
    destruct Hi as [->|Hi]; [exfalso; apply (K j); split; [exists pb; split; assumption|exact Hj]|].
    apply (IH (upd bones i0 (bID pb)) Fr pr i Hi); [apply (proj2 (upd_names _ _ _ _ _)); exact Hn|]. intros j' Hj'. apply (proj1 (upd_names _ _ _ _ _)) in Hj'. exact (K j' Hj').
  - destruct Hi as [->|Hi]; [apply named_none with (i := i) in E0; contradiction|]. exact (IH bones Fr pr i Hi Hn K).
Qed.
Lemma pair_text_ok pr : without "," (fst pr) -> without "," (snd pr) -> without "," (pair_text pr).
Proof.
  destruct pr as [a b]. unfold pair_text. cbn [fst snd]. intros A B. induction a as [|c a IH].
  - cbn. apply without_cons. split; [discriminate|exact B].
  - apply without_cons in A. cbn. apply without_cons. split; [apply A|]. apply IH. apply A.
Qed.
Lemma ch_parent_args pairs (bones : bones_t) : pairs <> [] -> Forall (fun pr => without "," (fst pr) /\ without "," (snd pr)) pairs ->
  ch_parent (comma_list (map pair_text pairs)) bones = ch_parents (map pair_text pairs) bones.
Proof.
  intros E F. unfold ch_parent. assert (S : split "," (comma_list (map pair_text pairs)) = map pair_text pairs).
  { apply split_list; [destruct pairs; [contradiction|discriminate]|]. clear E. induction F as [|pr l [A B] _ IH]; [constructor|]. cbn. constructor; [apply pair_text_ok; assumption|exact IH]. }
  rewrite S. destruct (String.eqb_spec (comma_list (map pair_text pairs)) "") as [Q|_]; [|reflexivity]. rewrite Q in S. cbn in S.
  destruct pairs as [|[[|c a] b] pairs]; [contradiction| |]; cbn in S; destruct pairs; discriminate.
Qed.
End Parents.
