From Coq Require Import List Arith ZArith Permutation Lia Bool.
From Verif.Model Require Import Num Vec Triangulate.
From Verif.Spec Require Import Surface.
From Verif.Proofs Require Import SurfaceLemmas.
Import ListNotations.

Lemma nth_error_mid {A} (a b : list A) x : nth_error (a ++ x :: b) (length a) = Some x.
Proof. rewrite nth_error_app2 by lia. rewrite Nat.sub_diag. reflexivity. Qed.

(** Cyclic successor / predecessor of position |a| in a ++ x :: b, read off b ++ a = p :: r ++ [q]. *)
Lemma cyc_next (a b : list nat) x p r :
  b ++ a = p :: r ->
  nth_error (a ++ x :: b) ((length a + 1) mod length (a ++ x :: b)) = Some p.
Proof.
  intros H. rewrite app_length. cbn [length].
  destruct b as [|y b].
  - cbn in H; subst a. cbn [length].
    replace (S (length r) + 1) with (S (length r) + 1) by reflexivity.
    rewrite Nat.mod_same by lia. reflexivity.
  - cbn in H; injection H as -> Hr. cbn [length].
    rewrite Nat.mod_small by lia.
    rewrite nth_error_app2 by lia.
    replace (length a + 1 - length a) with 1 by lia. reflexivity.
Qed.

Lemma cyc_prev (a b : list nat) x r q :
  b ++ a = r ++ [q] ->
  nth_error (a ++ x :: b) ((length a + length (a ++ x :: b) - 1) mod length (a ++ x :: b)) = Some q.
Proof.
  intros H. rewrite app_length. cbn [length].
  destruct a as [|z a'] eqn:Ea.
  - rewrite app_nil_r in H. subst b. cbn [length app].
    rewrite app_length; cbn [length].
    replace (0 + (0 + S (length r + 1)) - 1) with (S (length r)) by lia.
    rewrite Nat.mod_small by lia.
    cbn [nth_error]. rewrite nth_error_app2 by lia.
    rewrite Nat.sub_diag. reflexivity.
  - destruct (@exists_last _ (z :: a')) as [a0 [w Ha]]; [discriminate|].
    rewrite Ha in *. rewrite app_assoc in H.
    apply app_inj_tail in H as [_ ->].
    rewrite app_length; cbn [length].
    replace (length a0 + 1 + (length a0 + 1 + S (length b)) - 1)
      with (length a0 + 1 * (length a0 + 1 + S (length b))) by lia.
    rewrite Nat.mod_add by lia. rewrite Nat.mod_small by lia.
    rewrite <- app_assoc. rewrite nth_error_app2 by lia.
    rewrite Nat.sub_diag. reflexivity.
Qed.

Section Proofs.
Context {T : Type} {N : Num T}.
Variable poly : list (vec3 T).
Let n := length poly.

Definition ok_tri (t : tri) : Prop := tri_distinct t /\ tri_corners_in (seq 0 n) t.

Definition inv (ii : list nat) (dst : list tri) : Prop :=
  NoDup ii /\ incl ii (seq 0 n) /\ Forall ok_tri dst /\
  ((3 <= length ii /\ length dst + length ii = n /\
    exists ds, Permutation (flat_map tri_edges dst ++ cycle_edges ii)
                           (cycle_edges (seq 0 n) ++ flat_map both_ways ds))
   \/ (length ii = 2 /\ length dst + 2 = n /\ dissects (seq 0 n) dst)).

Lemma pidx_ok i : In i (seq 0 n) -> exists v, pidx poly i = Some v.
Proof.
  intros H. apply in_seq in H. unfold pidx.
  destruct (nth_error poly i) eqn:E; [eauto|].
  apply nth_error_None in E. unfold n in H. lia.
Qed.

Lemma any_inside_ok tmp v0 v1 v2 : incl tmp (seq 0 n) ->
  exists b, any_inside poly tmp v0 v1 v2 = Some b.
Proof.
  induction tmp as [|i tmp IH]; intros H; cbn [any_inside]; [eauto|].
  destruct (pidx_ok i) as [v ->]; [apply H; left; reflexivity|].
  destruct (is_in_triangle _ _ _ _); [eauto|].
  apply IH. intros z Hz; apply H; right; exact Hz.
Qed.

Lemma split_at {A} (l : list A) i : i < length l ->
  exists a x b, l = a ++ x :: b /\ length a = i /\ firstn i l ++ skipn (i + 1) l = a ++ b.
Proof.
  intros H. destruct (nth_error l i) as [x|] eqn:E.
  - apply nth_error_split in E as (a & b & -> & <-).
    exists a, x, b. repeat split.
    rewrite firstn_app, firstn_all, Nat.sub_diag, firstn_O, app_nil_r.
    f_equal. rewrite skipn_app, skipn_all2 by lia.
    replace (length a + 1 - length a) with 1 by lia. reflexivity.
  - apply nth_error_None in E. lia.
Qed.

Lemma ear_shape (l : list nat) : 2 <= length l -> exists p r q, l = p :: r ++ [q].
Proof.
  destruct l as [|p l]; cbn [length]; [lia|]. intros H.
  destruct (@exists_last _ l) as [r [q ->]]; [destruct l; cbn in *; [lia|discriminate]|].
  eauto.
Qed.

Lemma pass_inv m k : forall ii dst, inv ii dst -> 3 <= length ii -> k <= length ii ->
  exists ii' dst', pass poly m k ii dst = Some (ii', dst') /\ inv ii' dst' /\
    length ii' <= length ii.
Proof.
  induction k as [|i IH]; intros ii dst Hinv H3 Hk.
  - exists ii, dst. cbn. auto.
  - cbn [pass].
    destruct (split_at ii i) as (a & x & b & El & Ea & Etmp); [lia|].
    assert (Hlen : length (b ++ a) = length ii - 1).
    { rewrite El, !app_length; cbn [length]; lia. }
    destruct (ear_shape (b ++ a)) as (p & r & q & Eba); [lia|].
    pose proof (cyc_next a b x p (r ++ [q]) Eba) as Hn.
    pose proof (cyc_prev a b x (p :: r) q Eba) as Hp.
    pose proof (nth_error_mid a b x) as Hm.
    rewrite <- El, Ea in Hn, Hp, Hm.
    rewrite Hp, Hm, Hn.
    destruct Hinv as (Hnd & Hin & Hok & Hcase).
    destruct Hcase as [(_ & Hsum & ds & Hperm)|(H2 & _)]; [|lia].
    assert (Hinx : In x (seq 0 n)). { apply Hin. rewrite El. apply in_elt. }
    assert (Hsub : forall z, In z (b ++ a) -> In z ii).
    { intros z Hz. rewrite El. apply in_app_iff in Hz. apply in_app_iff.
      destruct Hz; [right; right|left]; assumption. }
    assert (Hinp : In p (seq 0 n)). { apply Hin, Hsub. rewrite Eba. left; reflexivity. }
    assert (Hinq : In q (seq 0 n)).
    { apply Hin, Hsub. rewrite Eba. right. apply in_elt. }
    assert (Hnd' : NoDup (x :: b ++ a)).
    { eapply Permutation_NoDup; [|exact Hnd]. rewrite El.
      symmetry. etransitivity; [|apply Permutation_middle].
      apply perm_skip. apply Permutation_app_comm. }
    destruct (pidx_ok q Hinq) as [v0 ->].
    destruct (pidx_ok x Hinx) as [v1 ->].
    destruct (pidx_ok p Hinp) as [v2 ->].
    assert (Hinv0 : inv ii dst).
    { repeat split; try assumption. left. repeat split; try assumption. exists ds; exact Hperm. }
    destruct (nleb _ _).
    2:{ apply IH; [exact Hinv0 | assumption | lia]. }
    rewrite Etmp.
    assert (Hincl : incl (a ++ b) (seq 0 n)).
    { intros z Hz. apply Hin, Hsub. apply in_app_iff in Hz. apply in_app_iff. tauto. }
    destruct (any_inside_ok (a ++ b) v0 v1 v2 Hincl) as [bo ->].
    destruct bo.
    { apply IH; [exact Hinv0 | assumption | lia]. }
    assert (Hlt : length (a ++ b) = length ii - 1).
    { rewrite app_length, Nat.add_comm, <- app_length. exact Hlen. }
    assert (Hndtmp : NoDup (a ++ b)).
    { eapply Permutation_NoDup; [apply Permutation_app_comm|]. inversion Hnd'; assumption. }
    assert (Hok' : Forall ok_tri (dst ++ [(q, x, p)])).
    { apply Forall_app; split; [assumption|]. repeat constructor; try assumption.
      - intros ->. inversion Hnd' as [|? ? Hni _]; apply Hni. rewrite Eba. right; apply in_elt.
      - intros ->. inversion Hnd' as [|? ? Hni _]; apply Hni. rewrite Eba. left; reflexivity.
      - intros ->. inversion Hnd' as [|? ? _ Hnd2]. rewrite Eba in Hnd2.
        inversion Hnd2 as [|? ? Hni2 _]; apply Hni2. apply in_elt. }
    assert (Hear : Permutation (tri_edges (q, x, p) ++ cycle_edges (a ++ b))
                     (cycle_edges ii ++ both_ways (p, q))).
    { rewrite El.
      rewrite (cycle_edges_rot a b), (cycle_edges_rot a (x :: b)). cbn [app]. rewrite Eba.
      apply cycle_edges_ear. }
    assert (Hnew : Permutation (flat_map tri_edges (dst ++ [(q, x, p)]) ++ cycle_edges (a ++ b))
                     (cycle_edges (seq 0 n) ++ flat_map both_ways (ds ++ [(p, q)]))).
    { rewrite !flat_map_app. cbn [flat_map]. rewrite !app_nil_r.
      rewrite <- app_assoc, Hear, !app_assoc. apply Permutation_app_tail. exact Hperm. }
    destruct (length (a ++ b) <? 3) eqn:Elt.
    + apply Nat.ltb_lt in Elt.
      exists (a ++ b), (dst ++ [(q, x, p)]). split; [reflexivity|]. split; [|lia].
      repeat split; try assumption. right.
      rewrite (app_length dst); cbn [length]. split; [lia|]. split; [lia|].
      (* the two remaining edges are the last diagonal *)
      exists ds. rewrite flat_map_app; cbn [flat_map]; rewrite app_nil_r.
      assert (Ecyc : Permutation (cycle_edges (a ++ b)) (both_ways (p, q))).
      { rewrite (cycle_edges_rot a b), Eba.
        assert (r = []) as ->.
        { rewrite Eba in Hlen. cbn [length] in Hlen. rewrite app_length in Hlen. cbn in Hlen.
          destruct r; [reflexivity|cbn in Hlen; lia]. }
        reflexivity. }
      assert (Hear' : Permutation (tri_edges (q, x, p)) (cycle_edges ii)).
      { apply (Permutation_app_inv_r (both_ways (p, q))). rewrite <- Hear, Ecyc. reflexivity. }
      rewrite Hear'. exact Hperm.
    + apply Nat.ltb_ge in Elt.
      destruct (IH (a ++ b) (dst ++ [(q, x, p)])) as (ii' & dst' & Hpass & Hi & Hle).
      * repeat split; try assumption. left. rewrite (app_length dst); cbn [length].
        split; [lia|]. split; [lia|]. eexists; exact Hnew.
      * lia.
      * lia.
      * exists ii', dst'. split; [exact Hpass|]. split; [exact Hi|lia].
Qed.

Lemma fan_list_ok ii m : m + 2 <= length ii ->
  exists ts, fan_list ii (seq 0 m) = Some ts.
Proof.
  intros H.
  assert (Hg : forall s k, s + k + 2 <= length ii -> exists ts, fan_list ii (seq s k) = Some ts).
  { intros s k; revert s; induction k as [|k IHk]; intros s Hs; cbn [seq fan_list]; [eauto|].
    destruct (IHk (S s)) as [ts ->]; [lia|].
    unfold fan_step.
    destruct (nth_error ii 0) eqn:E0; [|apply nth_error_None in E0; lia].
    destruct (nth_error ii (s + 1)) eqn:E1; [|apply nth_error_None in E1; lia].
    destruct (nth_error ii (s + 2)) eqn:E2; [|apply nth_error_None in E2; lia].
    eauto. }
  apply Hg; lia.
Qed.

(** The fan over x :: l, as structural recursion. *)
Fixpoint fan_rec (x : nat) (l : list nat) : list tri :=
  match l with
  | y :: ((z :: _) as r) => (x, y, z) :: fan_rec x r
  | _ => []
  end.

Lemma fan_list_rec x pre l :
  fan_list (x :: pre ++ l) (seq (length pre) (length l - 1)) = Some (fan_rec x l).
Proof.
  revert pre; induction l as [|y l IH]; intros pre; [reflexivity|].
  destruct l as [|z l]; [reflexivity|].
  specialize (IH (pre ++ [y])).
  replace (length (y :: z :: l) - 1) with (S (length (z :: l) - 1)) by (cbn [length]; lia).
  cbn [seq fan_list]. unfold fan_step.
  change (nth_error (x :: pre ++ y :: z :: l) 0) with (Some x).
  replace (length pre + 1) with (S (length pre)) by lia.
  replace (length pre + 2) with (S (S (length pre))) by lia.
  change (nth_error (x :: pre ++ y :: z :: l) (S (S (length pre))))
    with (nth_error (pre ++ y :: z :: l) (S (length pre))).
  change (nth_error (x :: pre ++ y :: z :: l) (S (length pre)))
    with (nth_error (pre ++ y :: z :: l) (length pre)).
  rewrite nth_error_mid.
  replace (nth_error (pre ++ y :: z :: l) (S (length pre))) with (Some z).
  2:{ rewrite nth_error_app2 by lia.
      replace (S (length pre) - length pre) with 1 by lia. reflexivity. }
  rewrite app_length in IH. cbn [length] in IH. rewrite Nat.add_1_r in IH.
  rewrite <- app_assoc in IH. cbn [app] in IH. cbn [length]. rewrite IH. reflexivity.
Qed.

Lemma fan_rec_len x l : length (fan_rec x l) = length l - 1.
Proof.
  induction l as [|y l IH]; [reflexivity|]. destruct l as [|z l]; [reflexivity|].
  cbn [fan_rec length] in *. rewrite IH. lia.
Qed.

Lemma fan_rec_dissects x l : 2 <= length l -> dissects (x :: l) (fan_rec x l).
Proof.
  induction l as [|y l IH]; cbn [length]; [lia|]. intros H.
  destruct l as [|z l]; [cbn in H; lia|].
  destruct l as [|w l].
  - exists []. reflexivity.
  - destruct IH as [ds Hds]; [cbn; lia|].
    exists ((x, z) :: ds).
    set (rest := z :: w :: l) in *.
    change (fan_rec x (y :: rest)) with ((x, y, z) :: fan_rec x rest).
    cbn [flat_map]. rewrite Hds.
    change (cycle_edges (x :: y :: rest)) with ((x, y) :: (y, z) :: path_edges x rest).
    change (cycle_edges (x :: rest)) with ((x, z) :: path_edges x rest).
    unfold tri_edges, both_ways at 2; cbn [fst snd app].
    apply perm_skip, perm_skip.
    transitivity ([(x, z); (z, x)] ++ path_edges x rest ++ flat_map both_ways ds).
    + cbn [app]. apply perm_swap.
    + change ((x, z) :: (z, x) :: flat_map both_ways ds) with ([(x, z); (z, x)] ++ flat_map both_ways ds).
      rewrite !app_assoc. apply Permutation_app_tail.
      apply Permutation_app_comm.
Qed.

Lemma fan_rec_ok x l : NoDup (x :: l) -> incl (x :: l) (seq 0 n) -> Forall ok_tri (fan_rec x l).
Proof.
  induction l as [|y l IH]; intros Hnd Hin; [constructor|].
  destruct l as [|z l]; [constructor|].
  cbn [fan_rec]. inversion Hnd as [|? ? Hx Hnd1]; subst. inversion Hnd1 as [|? ? Hy Hnd2]; subst.
  constructor.
  - repeat split; try (apply Hin; cbn; tauto).
    + intros ->; apply Hx; left; reflexivity.
    + intros ->; apply Hy; left; reflexivity.
    + intros ->; apply Hx; right; left; reflexivity.
  - apply IH.
    + constructor; [|assumption]. intros HH; apply Hx; right; exact HH.
    + intros w [<-|Hw]; [apply Hin; left; reflexivity|]. apply Hin; right; right; exact Hw.
Qed.

Lemma clip_ok m fuel : forall ii dst, inv ii dst -> length ii <= fuel ->
  exists ts, clip poly fuel m ii dst = Some ts /\
    length ts + 2 = n /\ Forall ok_tri ts /\ dissects (seq 0 n) ts.
Proof.
  induction fuel as [|f IH]; intros ii dst Hinv Hf.
  - destruct Hinv as (_ & _ & Hok & [(H3 & _)|(H2 & _)]); lia.
  - cbn [clip]. destruct (length ii <? 3) eqn:E3.
    + apply Nat.ltb_lt in E3. destruct Hinv as (_ & _ & Hok & [(H3 & _)|(H2 & Hs & Hd)]); [lia|].
      exists dst. auto.
    + apply Nat.ltb_ge in E3.
      destruct (pass_inv m (length ii) ii dst Hinv E3 (le_n _)) as (ii' & dst' & -> & Hinv' & Hle).
      destruct (length ii' =? length ii) eqn:Eeq.
      * apply Nat.eqb_eq in Eeq.
        destruct Hinv' as (Hnd & Hin & Hok & [(H3 & Hs & ds & Hperm)|(H2 & _)]); [|lia].
        destruct ii' as [|x l]; [cbn in *; lia|].
        unfold fan. replace (length (x :: l) - 2) with (length l - 1) by (cbn; lia).
        pose proof (fan_list_rec x [] l) as Hfan. cbn [app length] in Hfan.
        rewrite Hfan. cbn [option_map].
        exists (dst' ++ fan_rec x l). split; [reflexivity|].
        cbn [length] in *. rewrite app_length, fan_rec_len.
        split; [lia|]. split.
        -- apply Forall_app; split; [exact Hok|]. apply fan_rec_ok; assumption.
        -- destruct (fan_rec_dissects x l) as [ds2 H2]; [lia|].
           exists (ds ++ ds2). rewrite !flat_map_app, H2, !app_assoc.
           apply Permutation_app_tail. exact Hperm.
      * apply Nat.eqb_neq in Eeq. apply IH; [exact Hinv'|lia].
Qed.

Lemma poly_normal_ok : 3 <= n -> exists m, poly_normal poly = Some m.
Proof.
  intros H3. unfold poly_normal. fold n.
  match goal with |- exists _, option_map _ (fold_left ?f ?l ?a) = _ => set (stp := f) end.
  assert (Hg : forall l acc, incl l (seq 0 n) -> (exists a, acc = Some a) ->
             exists a, fold_left stp l acc = Some a).
  { induction l as [|i l IHl]; intros acc Hl [a ->]; cbn [fold_left]; [eauto|].
    apply IHl; [intros z Hz; apply Hl; right; exact Hz|].
    unfold stp.
    assert (Hi : In i (seq 0 n)) by (apply Hl; left; reflexivity).
    apply in_seq in Hi.
    destruct (pidx_ok ((i + n - 1) mod n)) as [v0 ->].
    { apply in_seq. split; [lia|]. apply Nat.mod_upper_bound. lia. }
    destruct (pidx_ok i) as [v1 ->]; [apply in_seq; lia|].
    destruct (pidx_ok ((i + 1) mod n)) as [v2 ->].
    { apply in_seq. split; [lia|]. apply Nat.mod_upper_bound. lia. }
    eauto. }
  destruct (Hg (seq 0 n) (Some (mkV3 nzero nzero nzero))) as [a ->];
    [apply incl_refl|eauto|]. cbn. eauto.
Qed.

Lemma triangulate_ok : 3 <= n ->
  exists ts, triangulate poly = Some ts /\
    length ts + 2 = n /\ Forall ok_tri ts /\ dissects (seq 0 n) ts.
Proof.
  intros H3. unfold triangulate. fold n.
  destruct (n <? 3) eqn:E; [apply Nat.ltb_lt in E; lia|].
  destruct (poly_normal_ok H3) as [m ->].
  apply clip_ok; [|rewrite seq_length; lia].
  repeat split; [apply seq_NoDup|apply incl_refl|constructor|].
  left. rewrite seq_length. repeat split; [exact H3|].
  exists []. cbn [flat_map app]. rewrite app_nil_r. reflexivity.
Qed.

Lemma triangulate_boundary ts : 3 <= n -> triangulate poly = Some ts ->
  same_boundary (flat_map tri_edges ts) (cycle_edges (seq 0 n)).
Proof.
  intros H3 Hts. destruct (triangulate_ok H3) as (ts' & E & _ & _ & Hd).
  rewrite Hts in E; injection E as <-. apply dissects_same_boundary, Hd.
Qed.

Lemma triangulate_small : n < 3 -> triangulate poly = Some [].
Proof. intros H. unfold triangulate. fold n. apply Nat.ltb_lt in H. rewrite H. reflexivity. Qed.
End Proofs.
