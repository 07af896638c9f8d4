(** The node graph of the glTF export. *)
From Coq Require Import String List ZArith Bool Lia Permutation.
From Verif.Model Require Import Num Vec Matrix Mqo MqoDoc Gltf Mqo2Gltf.
From Verif Require Import Spec.GltfSpec Proofs.Mqo2MmdProofs Proofs.MqoObjProofs Proofs.Mmd2MqoFaces.
Import ListNotations.
Local Open Scope Z_scope.
Local Open Scope list_scope.

Definition refs (g : graph) : list nat := grRoots g ++ map snd (grEdges g).

Lemma refs_root g i : Permutation (refs (add_root g i)) (i :: refs g).
Proof. unfold refs, add_root; cbn. rewrite <- app_assoc. symmetry. apply Permutation_middle. Qed.
Lemma refs_edge g p i : Permutation (refs (add_edge g p i)) (i :: refs g).
Proof.
  unfold refs, add_edge; cbn. rewrite map_app; cbn. rewrite app_assoc.
  symmetry. apply Permutation_cons_append.
Qed.

(** *** [place] *)
Lemma rev_last {A} (l : list A) x : nth_error (rev l) 0 = Some x -> exists l', l = l' ++ [x].
Proof.
  destruct (rev l) as [|y r] eqn:E; cbn; [discriminate|]. intros [= ->].
  exists (rev r). rewrite <- (rev_involutive l), E. reflexivity.
Qed.
Lemma rev_last_None {A} (l : list A) : nth_error (rev l) 0 = None -> l = [].
Proof.
  destruct (rev l) as [|y r] eqn:E; cbn; [|discriminate]. intros _.
  rewrite <- (rev_involutive l), E. reflexivity.
Qed.

Lemma place_refs ign l : forall i path g g', place ign i l path g = Some g' ->
  Permutation (refs g') (seq i (length l) ++ refs g).
Proof.
  induction l as [|[d pl] r IH]; intros i path g g'; cbn [place length seq].
  - intros [= <-]. apply Permutation_refl.
  - destruct (d <? 0); [discriminate|]. intros H. apply IH in H. etransitivity; [exact H|].
    cbn [app]. etransitivity; [|symmetry; apply Permutation_middle].
    apply Permutation_app_head.
    destruct (if ign then None else _) as [p|]; [apply refs_edge|apply refs_root].
Qed.

(** Edges grow at the end; the new ones go from smaller to larger numbers. *)
Lemma place_edges ign l : forall i path g g', place ign i l path g = Some g' ->
  Forall (fun p => (p < i)%nat) path ->
  exists es, grEdges g' = grEdges g ++ es /\
    Forall (fun e => (fst e < snd e)%nat /\ (i <= snd e < i + length l)%nat) es /\ (ign = true -> es = []).
Proof.
  induction l as [|[d pl] r IH]; intros i path g g'; cbn [place length].
  - intros [= <-] _. exists []. rewrite app_nil_r. auto.
  - destruct (d <? 0); [discriminate|].
    set (path1 := if d <? Z.of_nat (length path) then firstn (Z.to_nat d) path else path).
    intros H Hp.
    assert (Hp1 : Forall (fun p => (p < i)%nat) path1).
    { unfold path1. destruct (d <? _); [apply forall_firstn|]; exact Hp. }
    apply IH in H.
    2:{ destruct pl; [apply Forall_app; split; [|repeat constructor]|]; eapply Forall_impl; try exact Hp1; intros; cbn in *; lia. }
    destruct H as (es & He & Hf & Hi).
    destruct (if ign then None else nth_error (rev path1) 0) as [p|] eqn:E; cbn in He.
    + exists ((p, i) :: es). rewrite <- app_assoc in He. split; [exact He|]. split.
      * constructor; cbn.
        -- destruct ign; [discriminate|]. apply rev_last in E as (l' & E). rewrite E in Hp1.
           apply Forall_app in Hp1 as [_ Hp1]. inversion Hp1; subst. lia.
        -- eapply Forall_impl; [|exact Hf]. cbn. intros; lia.
      * intros ->. discriminate E.
    + exists es. split; [exact He|]. split; [|exact Hi]. eapply Forall_impl; [|exact Hf]. cbn. intros; lia.
Qed.

(** With proper depths the path leads from a root to the last object. *)
Definition on_path (depths : list Z) (i : nat) (path : list nat) : Prop :=
  forall k, (k < length path)%nat -> exists j, nth_error path k = Some j /\ (j < i)%nat /\ nth_error depths j = Some (Z.of_nat k) /\
    forall m dm, (j < m < i)%nat -> nth_error depths m = Some dm -> Z.of_nat k < dm.

Lemma nth_error_firstn' {A} (l : list A) n k : (k < n)%nat -> nth_error (firstn n l) k = nth_error l k.
Proof. revert n k; induction l as [|x l IH]; intros [|n] [|k] H; cbn; try reflexivity; try lia. apply IH. lia. Qed.

Definition links (depths : list Z) (i : nat) (g : graph) : Prop :=
  forall c, (c < i)%nat ->
    (In c (grRoots g) -> tree_root depths c) /\
    (forall p, In (p, c) (grEdges g) -> tree_parent depths c p).

Lemma place_tree depths l : proper_depths depths -> forall i path (g g' : graph),
  (forall k, nth_error depths (i + k) = nth_error l k) ->
  place false i (map (fun d => (d, true)) l) path g = Some g' ->
  on_path depths i path -> (i = O -> path = []) ->
  (forall d, (0 < i)%nat -> nth_error depths (i - 1) = Some d -> Z.of_nat (length path) = d + 1) ->
  exists rs es, grRoots g' = grRoots g ++ rs /\ grEdges g' = grEdges g ++ es /\
    (forall c, In c rs -> tree_root depths c) /\ (forall p c, In (p, c) es -> tree_parent depths c p).
Proof.
  intros HD. induction l as [|d r IH]; intros i path g g' Hl H HP H0 Hlen.
  - cbn in H. injection H as <-. exists [], []. rewrite !app_nil_r. repeat split; try reflexivity; intros; contradiction.
  - cbn [map place] in H.
    pose proof (Hl O) as Hd. cbn in Hd. rewrite Nat.add_0_r in Hd.
    destruct (HD _ _ Hd) as (D0 & D1 & D2).
    assert (Hle : d <= Z.of_nat (length path)).
    { destruct i as [|i']; [rewrite (D1 eq_refl); lia|].
      cbn in D2, Hlen. rewrite Nat.sub_0_r in D2, Hlen.
      destruct (nth_error depths i') as [e|] eqn:E.
      - specialize (D2 e ltac:(lia) eq_refl). specialize (Hlen e ltac:(lia) eq_refl). lia.
      - exfalso. apply nth_error_None in E. assert (nth_error depths (S i') <> None) by congruence.
        apply nth_error_Some in H1. lia. }
    destruct (d <? 0) eqn:E0; [discriminate|].
    set (path1 := if d <? Z.of_nat (length path) then firstn (Z.to_nat d) path else path) in *.
    assert (L1 : length path1 = Z.to_nat d).
    { unfold path1. destruct (d <? Z.of_nat (length path)) eqn:E; [rewrite firstn_length; apply Z.ltb_lt in E; lia|apply Z.ltb_ge in E; lia]. }
    assert (P1 : on_path depths i path1).
    { intros k Hk. destruct (HP k) as (j & Hj & R).
      - lia.
      - exists j. split; [|exact R]. unfold path1. destruct (d <? Z.of_nat (length path)); [|exact Hj].
        rewrite nth_error_firstn'; [exact Hj|]. lia. }
    assert (Hstep : exists rs es, 
       match nth_error (rev path1) 0 with Some p => add_edge g p i | None => add_root g i end
         = mkGraph (grRoots g ++ rs) (grEdges g ++ es) /\
       (forall c, In c rs -> tree_root depths c) /\ (forall p c, In (p, c) es -> tree_parent depths c p)).
    { destruct (nth_error (rev path1) 0) as [p|] eqn:E.
      - exists [], [(p, i)]. unfold add_edge. rewrite app_nil_r. split; [reflexivity|]. split; [intros ? []|].
        intros p' c [[= <- <-]|[]].
        apply rev_last in E as (l' & E).
        assert (Ll : length l' = (Z.to_nat d - 1)%nat /\ (0 < Z.to_nat d)%nat).
        { rewrite E, app_length in L1; cbn in L1. lia. }
        destruct (P1 (length l')) as (j & Hj & Hji & Hdj & Hb); [rewrite E, app_length; cbn; lia|].
        rewrite E, nth_error_app2, Nat.sub_diag in Hj by lia. cbn in Hj. injection Hj as ->.
        exists d, (Z.of_nat (length l')). repeat split; try assumption; try lia.
        intros m dm Hm Hdm. specialize (Hb m dm Hm Hdm). lia.
      - exists [i], []. unfold add_root. rewrite app_nil_r. split; [reflexivity|]. split; [|intros ? ? []].
        intros c [<-|[]]. apply rev_last_None in E. rewrite E in L1; cbn in L1.
        exists d. split; [exact Hd|]. intros j dj _ Hj. destruct (HD _ _ Hj) as [? _]. lia. }
    destruct Hstep as (rs & es & Eg & Hr & He). rewrite Eg in H.
    apply (IH (S i)) in H.
    + destruct H as (rs' & es' & A1 & A2 & A3 & A4). cbn in A1, A2.
      exists (rs ++ rs'), (es ++ es'). rewrite <- app_assoc in A1, A2. split; [exact A1|]. split; [exact A2|]. split.
      * intros c Hc. apply in_app_or in Hc as [Hc|Hc]; auto.
      * intros p c Hc. apply in_app_or in Hc as [Hc|Hc]; auto.
    + intros k. specialize (Hl (S k)). cbn in Hl. rewrite Nat.add_succ_r in Hl. exact Hl.
    + intros k Hk. rewrite app_length in Hk; cbn in Hk.
      destruct (Nat.eq_dec k (length path1)) as [->|Ne].
      * exists i. rewrite nth_error_app2, Nat.sub_diag by lia. split; [reflexivity|]. split; [lia|]. split.
        -- rewrite Hd. f_equal. lia.
        -- intros; lia.
      * destruct (P1 k) as (j & Hj & Hji & Hdj & Hb); [lia|]. exists j.
        split; [rewrite nth_error_app1 by lia; exact Hj|]. split; [lia|]. split; [exact Hdj|].
        intros m dm Hm Hdm. destruct (Nat.eq_dec m i) as [->|]; [|apply (Hb m dm); [lia|exact Hdm]].
        rewrite Hd in Hdm. injection Hdm as <-. lia.
    + discriminate.
    + intros d' _ Hd'. rewrite app_length; cbn. cbn in Hd'; rewrite ?Nat.sub_0_r in Hd'. rewrite Hd in Hd'. injection Hd' as <-. lia.
Qed.

(** [place] fails only at a negative depth. *)
Lemma place_total ign l : forall i path g, Forall (fun p => 0 <= fst p) l -> exists g', place ign i l path g = Some g'.
Proof.
  induction l as [|[d pl] r IH]; intros i path g HF; cbn [place]; [eauto|].
  inversion HF; subst. cbn in *. replace (d <? 0) with false by (symmetry; apply Z.ltb_ge; lia). apply IH. assumption.
Qed.

(** *** Children lists *)
Lemma in_children g p c : In c (children g p) <-> In (p, c) (grEdges g).
Proof.
  unfold children. rewrite in_map_iff. split.
  - intros ([a b] & <- & H). apply filter_In in H as [H E]. cbn in *. apply Nat.eqb_eq in E as ->. exact H.
  - intros H. exists (p, c). split; [reflexivity|]. apply filter_In. split; [exact H|]. cbn. apply Nat.eqb_refl.
Qed.
Lemma children_all es n : Forall (fun e => (fst e < n)%nat) es ->
  Permutation (flat_map (fun p => map snd (filter (fun e : nat * nat => Nat.eqb (fst e) p) es)) (seq 0 n)) (map snd es).
Proof.
  induction es as [|[p c] es IH]; intros H.
  - cbn. replace (flat_map _ _) with (@nil nat); [constructor|]. induction (seq 0 n); [reflexivity|]. cbn. assumption.
  - inversion H as [|? ? H1 H2]; subst. cbn in H1. cbn [map snd].
    assert (Hi : In p (seq 0 n)) by (apply in_seq; lia).
    assert (Hn : NoDup (seq 0 n)) by apply seq_NoDup.
    specialize (IH H2). etransitivity; [|apply perm_skip; exact IH]. clear IH H H1.
    induction (seq 0 n) as [|a l IHl]; [contradiction|]. inversion Hn; subst. cbn [flat_map filter fst].
    destruct (Nat.eqb_spec p a) as [->|Ne].
    + cbn [map snd app]. apply perm_skip. apply Permutation_app_head.
      assert (G : forall l', ~ In a l' -> 
        flat_map (fun p => map snd (if Nat.eqb a p then (a, c) :: filter (fun e : nat * nat => Nat.eqb (fst e) p) es
                                    else filter (fun e : nat * nat => Nat.eqb (fst e) p) es)) l'
        = flat_map (fun p => map snd (filter (fun e : nat * nat => Nat.eqb (fst e) p) es)) l').
      { induction l' as [|b l' IHl']; intros Hb; [reflexivity|]. cbn [flat_map].
        destruct (Nat.eqb_spec a b) as [->|]; [exfalso; apply Hb; left; reflexivity|].
        rewrite IHl'; [reflexivity|]. intros Hx; apply Hb; right; exact Hx. }
      rewrite G by assumption. apply Permutation_refl.
    + destruct Hi as [->|Hi]; [contradiction|].
      etransitivity; [apply Permutation_app_head; apply IHl; assumption|].
      symmetry. apply Permutation_middle.
Qed.

(** *** Bones *)
Lemma last_index_nth {A} (q : A -> bool) l i : last_index q l = Some i -> exists x, nth_error l i = Some x /\ q x = true.
Proof.
  intros E. apply last_index_Some in E as (a & x & b & -> & <- & Hq & _). exists x. split; [|exact Hq].
  rewrite nth_error_app2, Nat.sub_diag by lia. reflexivity.
Qed.
Lemma last_index_none {A} (q : A -> bool) l : last_index q l = None -> Forall (fun y => q y = false) l.
Proof. intros E. apply (proj1 (last_index_None q l)). exact E. Qed.

Section Bones.
Context {T : Type} {N : Num T}.

Lemma bone_by_id_nth (bones : list (bone T)) k b : NoDup (map bID bones) -> nth_error bones k = Some b ->
  bone_by_id bones (bID b) = Some k.
Proof.
  intros Hn Hb. unfold bone_by_id. destruct (last_index _ bones) as [i|] eqn:E.
  - apply last_index_nth in E as (x & Hx & Ex). apply Z.eqb_eq in Ex.
    f_equal. apply (NoDup_nth_error (map bID bones)); [exact Hn| |].
    + rewrite map_length. apply nth_error_Some. congruence.
    + rewrite !nth_error_map, Hx, Hb. cbn. congruence.
  - exfalso. pose proof (last_index_none _ _ E) as F. apply nth_error_In in Hb.
    rewrite Forall_forall in F. specialize (F b Hb). cbn in F. rewrite Z.eqb_refl in F. discriminate.
Qed.
Lemma bone_by_id_Some (bones : list (bone T)) id i : bone_by_id bones id = Some i ->
  exists b, nth_error bones i = Some b /\ bID b = id.
Proof. intros E. apply last_index_nth in E as (x & Hx & Ex). apply Z.eqb_eq in Ex. eauto. Qed.

(** The translation a bone should get. *)
Definition joint_trans (scale : T) (bones : list (bone T)) (b : bone T) : vec3 T :=
  if 0 <? bParent b
  then match bone_by_id bones (bParent b) with
       | Some p => match nth_error bones p with Some pb => v3scaled scale (v3sub (bPos b) (bPos pb)) | None => v3scaled scale (bPos b) end
       | None => v3scaled scale (bPos b)
       end
  else v3scaled scale (bPos b).

Lemma link_joints_spec (scale : T) base (bones : list (bone T)) : NoDup (map bID bones) ->
  forall l pre (ts ts' : list (vec3 T)) g g', bones = pre ++ l ->
  link_joints scale base bones l ts g = Some (ts', g') -> length ts = length bones ->
  (forall k b, (k < length pre)%nat -> nth_error bones k = Some b -> nth_error ts k = Some (joint_trans scale bones b)) ->
  length ts' = length bones /\
  (forall k b, nth_error bones k = Some b -> nth_error ts' k = Some (joint_trans scale bones b)) /\
  Permutation (refs g') (map (Nat.add base) (seq (length pre) (length l)) ++ refs g) /\
  exists rs es, grRoots g' = grRoots g ++ rs /\ grEdges g' = grEdges g ++ es /\
    (forall c, In c rs -> exists k b, c = (base + k)%nat /\ nth_error bones k = Some b /\ bParent b <= 0) /\
    (forall p c, In (p, c) es -> exists i k, p = (base + i)%nat /\ c = (base + k)%nat /\ bone_parent bones i k).
Proof.
  intros Hn. induction l as [|b r IH]; intros pre ts ts' g g' Hb H Hl Hd; cbn [link_joints] in H.
  - injection H as <- <-. rewrite app_nil_r in Hb. subst pre. split; [exact Hl|]. split.
    + intros k b Hk. apply Hd; [|exact Hk]. apply nth_error_Some. congruence.
    + split; [apply Permutation_refl|]. exists [], []. rewrite !app_nil_r. repeat split; intros; contradiction.
  - assert (Hk : nth_error bones (length pre) = Some b).
    { rewrite Hb, nth_error_app2, Nat.sub_diag by lia. reflexivity. }
    rewrite (bone_by_id_nth bones _ b Hn Hk) in H.
    assert (Hlt : (length pre < length ts)%nat) by (rewrite Hl; apply nth_error_Some; congruence).
    assert (Hb' : bones = (pre ++ [b]) ++ r) by (rewrite <- app_assoc; exact Hb).
    assert (Step : forall x g1, x = joint_trans scale bones b ->
      Permutation (refs g1) ((base + length pre)%nat :: refs g) ->
      link_joints scale base bones r (list_set ts (length pre) x) g1 = Some (ts', g') ->
      length ts' = length bones /\
      (forall k b, nth_error bones k = Some b -> nth_error ts' k = Some (joint_trans scale bones b)) /\
      Permutation (refs g') (map (Nat.add base) (seq (length pre) (S (length r))) ++ refs g) /\
      exists rs es, grRoots g' = grRoots g1 ++ rs /\ grEdges g' = grEdges g1 ++ es /\
        (forall c, In c rs -> exists k b, c = (base + k)%nat /\ nth_error bones k = Some b /\ bParent b <= 0) /\
        (forall p c, In (p, c) es -> exists i k, p = (base + i)%nat /\ c = (base + k)%nat /\ bone_parent bones i k)).
    { intros x g1 Hx Hp Hs. apply (IH (pre ++ [b])) in Hs.
      - destruct Hs as (A1 & A2 & A3 & A4). split; [exact A1|]. split; [exact A2|]. split; [|exact A4].
        etransitivity; [exact A3|]. rewrite app_length, Nat.add_1_r. cbn [length seq map app].
        etransitivity; [apply Permutation_app_head; exact Hp|]. symmetry. apply Permutation_middle.
      - exact Hb'.
      - rewrite list_set_length. exact Hl.
      - intros k b' Hk' Hb''. rewrite app_length in Hk'; cbn in Hk'. rewrite list_set_nth by exact Hlt.
        destruct (Nat.eqb_spec k (length pre)) as [->|Ne].
        + rewrite Hk in Hb''. injection Hb'' as <-. f_equal. exact Hx.
        + apply Hd; [lia|exact Hb'']. }
    unfold joint_trans in Step at 1.
    destruct (0 <? bParent b) eqn:E.
    + destruct (bone_by_id bones (bParent b)) as [p|] eqn:Ep; [|discriminate].
      destruct (nth_error bones p) as [pb|] eqn:Epb; [|discriminate].
      apply Step in H; [|reflexivity|apply refs_edge]. destruct H as (A1 & A2 & A3 & rs & es & B1 & B2 & B3 & B4).
      split; [exact A1|]. split; [exact A2|]. split; [exact A3|].
      exists rs, (((base + p)%nat, (base + length pre)%nat) :: es). cbn in B1, B2. rewrite <- app_assoc in B2.
      split; [exact B1|]. split; [exact B2|]. split; [exact B3|].
      intros q c [[= <- <-]|Hq]; [|apply B4; exact Hq].
      exists p, (length pre). split; [reflexivity|]. split; [reflexivity|].
      exists b, pb. split; [exact Hk|]. split; [exact Epb|].
      apply bone_by_id_Some in Ep as (b2 & Hb2 & Hid). rewrite Epb in Hb2. injection Hb2 as <-.
      apply Z.ltb_lt in E. auto.
    + apply Step in H; [|reflexivity|apply refs_root]. destruct H as (A1 & A2 & A3 & rs & es & B1 & B2 & B3 & B4).
      split; [exact A1|]. split; [exact A2|]. split; [exact A3|].
      exists ((base + length pre)%nat :: rs), es. cbn in B1, B2. rewrite <- app_assoc in B1.
      split; [exact B1|]. split; [exact B2|]. split; [|exact B4].
      intros c [<-|Hc]; [|apply B3; exact Hc]. exists (length pre), b. apply Z.ltb_ge in E. auto.
Qed.

Lemma link_joints_total (scale : T) base (bones : list (bone T)) : forall l ts g,
  (forall b, In b l -> In b bones) ->
  Forall (fun b => 0 < bParent b -> In (bParent b) (map bID bones)) bones ->
  exists r, link_joints scale base bones l ts g = Some r.
Proof.
  intros l; induction l as [|b r IH]; intros ts g Hin Hp; cbn [link_joints]; [eauto|].
  assert (K : forall id, In id (map bID bones) -> exists i pb, bone_by_id bones id = Some i /\ nth_error bones i = Some pb).
  { intros id Hid. apply in_map_iff in Hid as (x & <- & Hx). unfold bone_by_id.
    destruct (last_index _ bones) as [i|] eqn:E.
    - apply last_index_nth in E as (y & Hy & _). eauto.
    - exfalso. pose proof (last_index_none _ _ E) as F. rewrite Forall_forall in F. specialize (F x Hx). cbn in F.
      rewrite Z.eqb_refl in F. discriminate. }
  destruct (K (bID b)) as (i & ib & -> & _); [apply in_map; apply Hin; left; reflexivity|].
  destruct (0 <? bParent b) eqn:E.
  - assert (Hb : In (bParent b) (map bID bones)).
    { rewrite Forall_forall in Hp. apply Hp; [apply Hin; left; reflexivity|apply Z.ltb_lt; exact E]. }
    destruct (K _ Hb) as (p & pb & -> & ->). apply IH; [|exact Hp]. intros x Hx; apply Hin; right; exact Hx.
  - apply IH; [|exact Hp]. intros x Hx; apply Hin; right; exact Hx.
Qed.
End Bones.
