(** The node graph of the exported glTF document. *)
From Coq Require Import String List ZArith Bool Lia Permutation Reals Lra.
From Verif.Model Require Import Num NumR Vec Matrix Mqo MqoDoc Mmd2Mqo Normals Mqo2Mmd Gltf Mqo2Gltf.
From Verif Require Import Proofs.MatrixLemmas Spec.GltfSpec Proofs.Mqo2MmdProofs Proofs.MqoObjProofs Proofs.Mmd2MqoFaces Proofs.GltfGraph.
Import ListNotations.
Local Open Scope Z_scope.
Local Open Scope list_scope.

Lemma nodup_app_inv {A} (a b : list A) : NoDup (a ++ b) -> NoDup a /\ NoDup b /\ forall x, In x a -> ~ In x b.
Proof.
  induction a as [|x a IH]; cbn; intros H; [repeat split; [constructor|exact H|intros ? []]|].
  inversion H as [|? ? H1 H2]; subst. destruct (IH H2) as (I1 & I2 & I3). split; [constructor; [|exact I1]|split; [exact I2|]].
  - intros Hx. apply H1. apply in_or_app. left. exact Hx.
  - intros y [<-|Hy]; [|apply I3; exact Hy]. intros Hb. apply H1. apply in_or_app. right. exact Hb.
Qed.
Lemma seq_shift_add a n : forall k, map (Nat.add a) (seq k n) = seq (a + k) n.
Proof. induction n as [|n IH]; intros k; cbn; [reflexivity|]. rewrite IH, Nat.add_succ_r. reflexivity. Qed.

Lemma nodup_flat_map {A} (f : A -> list nat) l : NoDup (flat_map f l) -> forall p p' x x' c,
  nth_error l p = Some x -> nth_error l p' = Some x' -> In c (f x) -> In c (f x') -> p = p'.
Proof.
  induction l as [|a r IH]; intros H p p' x x' c Hp Hp' Hc Hc'; [destruct p; discriminate|].
  cbn in H. apply nodup_app_inv in H as (N1 & N2 & N3).
  assert (K : forall q y, nth_error r q = Some y -> In c (f y) -> In c (flat_map f r)).
  { intros q y Hq Hy. apply in_flat_map. exists y. split; [eapply nth_error_In; exact Hq|exact Hy]. }
  destruct p as [|p], p' as [|p']; cbn in Hp, Hp'.
  - reflexivity.
  - injection Hp as ->. exfalso. eapply N3; [exact Hc|eapply K; eassumption].
  - injection Hp' as ->. exfalso. eapply N3; [exact Hc'|eapply K; eassumption].
  - f_equal. eapply IH; eassumption.
Qed.

Section Top.
Context {T : Type} {N : Num T}.
Variables (scale centi eps : T) (ignore_hierarchy force_unlit : bool) (opaque99 rough : T) (tex_alpha : material T -> bool).
Notation conv := (to_gltf scale centi eps ignore_hierarchy force_unlit opaque99 rough tex_alpha).
Variables (d : document T) (bones : list (bone T)) (sets : list target_list) (g : gdoc T).
Hypothesis E : conv d bones sets = Some g.

Definition objs := fix_ids 0 (dObjects d).
Definition os := exported_objects ignore_hierarchy sets objs.

Lemma target_objects_eq : target_objects ignore_hierarchy sets objs = os.
Proof.
  unfold target_objects, os, exported_objects. apply filter_ext. intros o.
  assert (Q : is_target sets (oName o) = existsb (fun s => existsb (fun t => String.eqb t (oName o)) (tlTargets s)) sets).
  { unfold is_target. clear. induction sets as [|s r IH]; [reflexivity|]. cbn. rewrite IH. f_equal.
    induction (tlTargets s) as [|t l IHl]; [reflexivity|]. cbn. rewrite IHl, String.eqb_sym. reflexivity. }
  rewrite Q. destruct (existsb _ sets); [apply andb_false_r|]. cbn. rewrite andb_true_r. destruct ignore_hierarchy; reflexivity.
Qed.

Definition mmap := material_map os 0 0 (map (@mtName T) (dMaterials d)).
Definition bone_nodes (ts : list (vec3 T)) : list (gnode T) := map (fun p => mkNode (bName (fst p)) (snd p) [] None None) (combine bones ts).

Lemma conv_inv : exists ts g0 ns ms ss gr,
  add_bone_nodes scale (length os) bones (mkGraph [] []) = Some (ts, g0) /\
  conv_objects scale centi eps force_unlit objs sets bones (length os) (assoc mmap) os [] [] = Some (ns, ms, ss) /\
  place ignore_hierarchy 0 (map (fun o => (oDepth o, true)) os) [] g0 = Some gr /\
  gdNodes g = map (with_children gr) (numbered (ns ++ bone_nodes ts)) /\ gdRoots g = grRoots gr /\
  gdMeshes g = ms /\ gdSkins g = ss /\
  gdMats g = map (fun p => convert_material force_unlit opaque99 rough tex_alpha (snd p))
                 (filter (fun p => match assoc mmap (Z.of_nat (fst p)) with Some _ => true | None => false end) (numbered (dMaterials d))).
Proof.
  pose proof E as E'. unfold to_gltf in E'. fold objs in E'. rewrite target_objects_eq in E'. fold mmap in E'.
  destruct (add_bone_nodes scale (length os) bones (mkGraph [] [])) as [[ts g0]|]; [|discriminate].
  destruct (conv_objects _ _ _ _ _ _ _ _ _ _ _ _) as [[[ns ms] ss]|]; [|discriminate].
  destruct (place _ _ _ _ _) as [gr|] eqn:Ep; [|discriminate]. injection E' as <-.
  exists ts, g0, ns, ms, ss, gr. split; [reflexivity|]. split; [reflexivity|]. split; [exact Ep|]. repeat split.
Qed.

Lemma conv_objects_length objs0 base mm l : forall ms ss ns ms' ss',
  conv_objects scale centi eps force_unlit objs0 sets bones base mm l ms ss = Some (ns, ms', ss') -> length ns = length l.
Proof.
  induction l as [|o r IH]; intros ms ss ns ms' ss' H; cbn [conv_objects] in H; [injection H as <- <- <-; reflexivity|].
  destruct (morph_objects objs0 sets o) as [morphs|]; [|discriminate].
  assert (Next : forall n ms1 ss1, match conv_objects scale centi eps force_unlit objs0 sets bones base mm r ms1 ss1 with
            | Some (ns, ms', ss') => Some (n :: ns, ms', ss') | None => None end = Some (ns, ms', ss') -> length ns = length (o :: r)).
  { intros n ms1 ss1 Hn. destruct (conv_objects scale centi eps force_unlit objs0 sets bones base mm r ms1 ss1) as [[[a b] c]|] eqn:Er; [|discriminate].
    injection Hn as <- <- <-. cbn. f_equal. eapply IH. exact Er. }
  destruct (oVisible o); [|eapply Next; exact H].
  destruct (convert_object _ _ _ _ _ _ _ _ _) as [[mesh joints]|]; [|discriminate].
  destruct (negb (Nat.eqb (length joints) 0)).
  - destruct (make_skin _ _ _) as [s|]; [|discriminate]. eapply Next; exact H.
  - eapply Next; exact H.
Qed.

Lemma numbered_nth {A} (l : list A) i x : nth_error l i = Some x -> nth_error (numbered l) i = Some (i, x).
Proof.
  intros H. unfold numbered. assert (G : forall k, nth_error (combine (seq k (length l)) l) i = Some ((k + i)%nat, x)).
  { revert i H. induction l as [|a r IH]; intros [|i] H k; cbn in *; try discriminate; [injection H as ->; rewrite Nat.add_0_r; reflexivity|].
    rewrite (IH i H (S k)). f_equal. f_equal. lia. }
  apply G.
Qed.
Lemma numbered_map_flat (l : list (gnode T)) gr : flat_map gnChildren (map (with_children gr) (numbered l)) = flat_map (children gr) (seq 0 (length l)).
Proof.
  unfold numbered. generalize 0%nat. induction l as [|a r IH]; intros k; cbn; [reflexivity|]. f_equal. apply IH.
Qed.
Lemma numbered_length {A} (l : list A) : length (numbered l) = length l.
Proof. unfold numbered. rewrite combine_length, seq_length. lia. Qed.

Hypothesis HB : NoDup (map bID bones).
Definition depths := map (@oDepth T) os.

Record graph_facts (ts : list (vec3 T)) (ns : list (gnode T)) (gr : graph) : Prop := {
  gf_nodes : gdNodes g = map (with_children gr) (numbered (ns ++ bone_nodes ts));
  gf_roots : gdRoots g = grRoots gr;
  gf_ns : length ns = length os;
  gf_ts : length ts = length bones;
  gf_trans : forall k b, nth_error bones k = Some b -> nth_error ts k = Some (joint_trans scale bones b);
  gf_refs : Permutation (refs gr) (seq 0 (length os + length bones));
  gf_edges : Forall (fun e => (fst e < length os + length bones)%nat) (grEdges gr);
  gf_split : exists rs es rs0 es0, grRoots gr = rs0 ++ rs /\ grEdges gr = es0 ++ es /\
    (forall c, In c rs0 -> exists k b, c = (length os + k)%nat /\ nth_error bones k = Some b /\ bParent b <= 0) /\
    (forall p c, In (p, c) es0 -> exists i k, p = (length os + i)%nat /\ c = (length os + k)%nat /\ bone_parent bones i k) /\
    Forall (fun c => (c < length os)%nat) rs /\ Forall (fun e => (fst e < snd e < length os)%nat) es /\
    (ignore_hierarchy = true -> es = []) /\
    (ignore_hierarchy = false -> proper_depths depths ->
       (forall c, In c rs -> tree_root depths c) /\ (forall p c, In (p, c) es -> tree_parent depths c p)) }.

Lemma place_roots ign l : forall i path gr gr', place ign i l path gr = Some gr' ->
  exists rs, grRoots gr' = grRoots gr ++ rs /\ Forall (fun c => (i <= c < i + length l)%nat) rs.
Proof.
  induction l as [|[dp pl] r IH]; intros i path gr gr' H; cbn [place] in H.
  - injection H as <-. exists []. rewrite app_nil_r. split; [reflexivity|constructor].
  - destruct (dp <? 0); [discriminate|]. apply IH in H as (rs & E1 & F).
    assert (F' : Forall (fun c => (i <= c < i + length ((dp, pl) :: r))%nat) rs).
    { eapply Forall_impl; [|exact F]. cbn. intros; lia. }
    destruct (if ign then None else _) as [p|]; cbn in E1.
    + exists rs. split; assumption.
    + rewrite <- app_assoc in E1. exists (i :: rs). split; [exact E1|]. constructor; [cbn; lia|exact F'].
Qed.

Lemma facts : exists ts ns ms ss gr, graph_facts ts ns gr /\
  conv_objects scale centi eps force_unlit objs sets bones (length os) (assoc mmap) os [] [] = Some (ns, ms, ss) /\
  gdMeshes g = ms /\ gdSkins g = ss.
Proof.
  destruct conv_inv as (ts & g0 & ns & ms & ss & gr & H1 & H2 & H3 & H4 & H5 & H6 & H7 & H8).
  exists ts, ns, ms, ss, gr. split; [|auto].
  unfold add_bone_nodes in H1. destruct (link_joints_spec scale (length os) bones HB bones [] _ _ _ _ eq_refl H1) as (A1 & A2 & A3 & rs0 & es0 & A4 & A5 & A6 & A7).
  { apply repeat_length. } { cbn; intros; lia. }
  cbn in A4, A5.
  pose proof (place_refs _ _ _ _ _ _ H3) as B1. rewrite map_length in B1.
  destruct (place_edges _ _ _ _ _ _ H3) as (es & B2 & B3 & B4); [constructor|]. rewrite map_length in B3.
  destruct (place_roots _ _ _ _ _ _ H3) as (rs & B5 & B6). rewrite map_length in B6.
  constructor; try assumption.
  - eapply conv_objects_length. exact H2.
  - rewrite B1, A3. unfold refs. cbn [grRoots grEdges map app length]. rewrite app_nil_r, seq_app, seq_shift_add, Nat.add_0_r.
    apply Permutation_refl.
  - rewrite B2, A5. apply Forall_app. split.
    + apply Forall_forall. intros [p c] Hp. destruct (A7 p c Hp) as (i & k & -> & _ & b & pb & _ & Hpb & _). cbn.
      assert (i < length bones)%nat by (apply nth_error_Some; congruence). lia.
    + eapply Forall_impl; [|exact B3]. cbn. intros; lia.
  - exists rs, es, rs0, es0. rewrite B5, B2, A4, A5. split; [reflexivity|]. split; [reflexivity|]. split; [exact A6|]. split; [exact A7|].
    split; [eapply Forall_impl; [|exact B6]; cbn; intros; lia|]. split; [eapply Forall_impl; [|exact B3]; cbn; intros; lia|].
    split; [exact B4|]. intros Hig HD. rewrite Hig in H3.
    assert (H3' : place false 0 (map (fun d => (d, true)) depths) [] g0 = Some gr) by (unfold depths; rewrite map_map; exact H3).
    destruct (place_tree depths depths HD 0 [] g0 gr) as (rs' & es' & C1 & C2 & C3 & C4).
    + reflexivity.
    + exact H3'.
    + intros k Hk. cbn in Hk. lia.
    + reflexivity.
    + intros; lia.
    + rewrite B5 in C1. apply app_inv_head in C1 as <-. rewrite B2 in C2. apply app_inv_head in C2 as <-. auto.
Qed.

Lemma nodes_length ts ns gr : graph_facts ts ns gr -> length (gdNodes g) = (length os + length bones)%nat.
Proof.
  intros F. rewrite (gf_nodes _ _ _ F), map_length, numbered_length, app_length, (gf_ns _ _ _ F). unfold bone_nodes.
  rewrite map_length, combine_length, (gf_ts _ _ _ F). lia.
Qed.
Lemma child_edge ts ns gr p c : graph_facts ts ns gr -> child_of g p c <-> In (p, c) (grEdges gr).
Proof.
  intros F. pose proof (nodes_length _ _ _ F) as L. rewrite <- in_children. unfold child_of. rewrite (gf_nodes _ _ _ F) in L |- *.
  rewrite map_length, numbered_length in L. split.
  - intros (n & Hn & Hc). destruct (nth_error (ns ++ bone_nodes ts) p) as [n0|] eqn:En.
    + rewrite (map_nth_error _ _ _ (numbered_nth _ _ _ En)) in Hn. injection Hn as <-. exact Hc.
    + exfalso. apply nth_error_None in En. assert (Hx : nth_error (map (with_children gr) (numbered (ns ++ bone_nodes ts))) p <> None) by congruence.
      apply nth_error_Some in Hx. rewrite map_length, numbered_length in Hx. lia.
  - intros Hc. pose proof (gf_edges _ _ _ F) as FE. rewrite Forall_forall in FE. apply in_children in Hc as Hc'. apply FE in Hc'. cbn in Hc'.
    destruct (nth_error (ns ++ bone_nodes ts) p) as [n0|] eqn:En; [|apply nth_error_None in En; lia].
    rewrite (map_nth_error _ _ _ (numbered_nth _ _ _ En)). eauto.
Qed.

Theorem referenced_once : Permutation (references g) (seq 0 (length (gdNodes g))).
Proof.
  destruct facts as (ts & ns & ms & ss & gr & F & _). rewrite (nodes_length _ _ _ F). rewrite <- (gf_refs _ _ _ F).
  unfold references. rewrite (gf_nodes _ _ _ F), (gf_roots _ _ _ F), numbered_map_flat. unfold refs. apply Permutation_app_head.
  apply children_all. pose proof (gf_edges _ _ _ F) as FE. rewrite app_length, (gf_ns _ _ _ F). unfold bone_nodes.
  rewrite map_length, combine_length, (gf_ts _ _ _ F), Nat.min_id. exact FE.
Qed.
Lemma references_nodup : NoDup (references g).
Proof. eapply Permutation_NoDup; [symmetry; apply referenced_once|apply seq_NoDup]. Qed.
Lemma root_not_child i p : In i (gdRoots g) -> ~ child_of g p i.
Proof.
  intros Hr (n & Hn & Hc). pose proof references_nodup as ND. unfold references in ND. apply nodup_app_inv in ND as (_ & _ & X).
  apply (X i Hr). apply in_flat_map. exists n. split; [eapply nth_error_In; exact Hn|exact Hc].
Qed.
Lemma one_parent c p p' : child_of g p c -> child_of g p' c -> p = p'.
Proof.
  intros (n & Hn & Hc) (n' & Hn' & Hc'). pose proof references_nodup as ND. unfold references in ND. apply nodup_app_inv in ND as (_ & ND & _).
  exact (nodup_flat_map _ _ ND _ _ _ _ _ Hn Hn' Hc Hc').
Qed.
Lemma referenced i : (i < length (gdNodes g))%nat -> In i (gdRoots g) \/ exists p, child_of g p i.
Proof.
  intros Hi. assert (H : In i (references g)).
  { eapply Permutation_in; [symmetry; apply referenced_once|]. apply in_seq. lia. }
  apply in_app_or in H as [H|H]; [left; exact H|right]. apply in_flat_map in H as (n & Hn & Hc). apply In_nth_error in Hn as (p & Hp).
  exists p, n. auto.
Qed.

Lemma tree_parent_unique ds i p p' : tree_parent ds i p -> tree_parent ds i p' -> p = p'.
Proof.
  intros (di & dp & A1 & A2 & A3 & A4 & A5) (di' & dp' & B1 & B2 & B3 & B4 & B5). rewrite A1 in B1. injection B1 as <-.
  destruct (Nat.lt_trichotomy p p') as [H|[H|H]]; [|exact H|].
  - specialize (A5 p' dp' ltac:(lia) B2). lia.
  - specialize (B5 p dp ltac:(lia) A2). lia.
Qed.
Lemma tree_root_parent ds i p : tree_root ds i -> ~ tree_parent ds i p.
Proof.
  intros (di & H1 & H2) (di' & dp & A1 & A2 & A3 & A4 & A5). rewrite H1 in A1. injection A1 as <-. specialize (H2 p dp A3 A2). lia.
Qed.

(** Object nodes: the tree of the depths. *)
Theorem object_tree : ignore_hierarchy = false -> proper_depths depths -> forall i, (i < length os)%nat ->
  (In i (gdRoots g) <-> tree_root depths i) /\ forall p, child_of g p i <-> tree_parent depths i p.
Proof.
  intros Hig HD i Hi. destruct facts as (ts & ns & ms & ss & gr & F & _).
  destruct (gf_split _ _ _ F) as (rs & es & rs0 & es0 & S1 & S2 & S3 & S4 & S5 & S6 & S7 & S8). destruct (S8 Hig HD) as (T1 & T2). clear S8 S7.
  assert (R1 : In i (gdRoots g) -> tree_root depths i).
  { rewrite (gf_roots _ _ _ F), S1. intros H. apply in_app_or in H as [H|H]; [|apply T1; exact H].
    destruct (S3 i H) as (k & b & -> & _). lia. }
  assert (C1 : forall p, child_of g p i -> tree_parent depths i p).
  { intros p Hp. apply (child_edge _ _ _ p i F) in Hp. rewrite S2 in Hp. apply in_app_or in Hp as [H|H]; [|apply T2; exact H].
    destruct (S4 p i H) as (j & k & _ & -> & _). lia. }
  destruct (referenced i) as [Hr|(q & Hq)]; [rewrite (nodes_length _ _ _ F); lia| |].
  - split; [split; auto|]. intros p. split; [apply C1|]. intros Hp. exfalso. exact (tree_root_parent _ _ _ (R1 Hr) Hp).
  - split; [split; [exact R1|]|].
    + intros Hr. exfalso. exact (tree_root_parent _ _ _ Hr (C1 _ Hq)).
    + intros p. split; [apply C1|]. intros Hp. rewrite (tree_parent_unique _ _ _ _ Hp (C1 _ Hq)). exact Hq.
Qed.
(** Without hierarchy every object is a root. *)
Theorem flat_objects : ignore_hierarchy = true -> forall i, (i < length os)%nat -> In i (gdRoots g).
Proof.
  intros Hig i Hi. destruct facts as (ts & ns & ms & ss & gr & F & _).
  destruct (gf_split _ _ _ F) as (rs & es & rs0 & es0 & S1 & S2 & S3 & S4 & S5 & S6 & S7 & S8). specialize (S7 Hig). subst es.
  destruct (referenced i) as [Hr|(q & Hq)]; [rewrite (nodes_length _ _ _ F); lia|exact Hr|].
  apply (child_edge _ _ _ q i F) in Hq. rewrite S2, app_nil_r in Hq. destruct (S4 _ _ Hq) as (j & k & _ & -> & _). lia.
Qed.
(** Object nodes come after their parents. *)
Theorem objects_earlier p i : (i < length os)%nat -> child_of g p i -> (p < i)%nat.
Proof.
  intros Hi Hp. destruct facts as (ts & ns & ms & ss & gr & F & _).
  destruct (gf_split _ _ _ F) as (rs & es & rs0 & es0 & S1 & S2 & S3 & S4 & S5 & S6 & S7 & S8).
  apply (child_edge _ _ _ p i F) in Hp. rewrite S2 in Hp. apply in_app_or in Hp as [H|H].
  - destruct (S4 p i H) as (j & k & _ & -> & _). lia.
  - rewrite Forall_forall in S6. apply S6 in H. cbn in H. lia.
Qed.

Lemma bone_parent_unique i i' k : bone_parent bones i k -> bone_parent bones i' k -> i = i'.
Proof.
  intros (b & pb & A1 & A2 & A3 & A4) (b' & pb' & B1 & B2 & B3 & B4). rewrite A1 in B1. injection B1 as <-.
  pose proof (bone_by_id_nth bones i pb HB A2) as Q1. pose proof (bone_by_id_nth bones i' pb' HB B2) as Q2. rewrite A4 in Q1. rewrite B4 in Q2. congruence.
Qed.
Theorem bone_tree k b : nth_error bones k = Some b ->
  (In (length os + k)%nat (gdRoots g) <-> bParent b <= 0) /\
  forall p, child_of g p (length os + k)%nat <-> exists i, p = (length os + i)%nat /\ bone_parent bones i k.
Proof.
  intros Hk. destruct facts as (ts & ns & ms & ss & gr & F & _).
  destruct (gf_split _ _ _ F) as (rs & es & rs0 & es0 & S1 & S2 & S3 & S4 & S5 & S6 & S7 & S8).
  assert (Kl : (k < length bones)%nat) by (apply nth_error_Some; congruence).
  assert (R1 : In (length os + k)%nat (gdRoots g) -> bParent b <= 0).
  { rewrite (gf_roots _ _ _ F), S1. intros H. apply in_app_or in H as [H|H].
    - destruct (S3 _ H) as (k' & b' & Ek & Hb' & Hp). assert (k' = k) by lia. subst k'. congruence.
    - rewrite Forall_forall in S5. apply S5 in H. lia. }
  assert (C1 : forall p, child_of g p (length os + k)%nat -> exists i, p = (length os + i)%nat /\ bone_parent bones i k).
  { intros p Hp. apply (child_edge _ _ _ p _ F) in Hp. rewrite S2 in Hp. apply in_app_or in Hp as [H|H].
    - destruct (S4 _ _ H) as (i & k' & -> & Ek & Hp). assert (k' = k) by lia. subst k'. eauto.
    - rewrite Forall_forall in S6. apply S6 in H. cbn in H. lia. }
  assert (X : bParent b <= 0 -> forall i, ~ bone_parent bones i k).
  { intros Hb i (b' & pb & A1 & A2 & A3 & A4). rewrite Hk in A1. injection A1 as <-. lia. }
  destruct (referenced (length os + k)%nat) as [Hr|(q & Hq)]; [rewrite (nodes_length _ _ _ F); lia| |].
  - split; [split; auto|]. intros p. split; [apply C1|]. intros (i & -> & Hi). exfalso. exact (X (R1 Hr) i Hi).
  - destruct (C1 q Hq) as (i & -> & Hi). split; [split; [exact R1|]|].
    + intros Hb. exfalso. exact (X Hb i Hi).
    + intros p. split; [apply C1|]. intros (i' & -> & Hi'). rewrite (bone_parent_unique _ _ _ Hi' Hi). exact Hq.
Qed.

Lemma bone_node_at k b : nth_error bones k = Some b -> exists n, nth_error (gdNodes g) (length os + k)%nat = Some n /\
  gnName n = bName b /\ gnTrans n = joint_trans scale bones b /\ gnMesh n = None /\ gnSkin n = None.
Proof.
  intros Hk. destruct facts as (ts & ns & ms & ss & gr & F & _). pose proof (gf_trans _ _ _ F k b Hk) as Ht.
  assert (H : nth_error (bone_nodes ts) k = Some (mkNode (bName b) (joint_trans scale bones b) [] None None)).
  { unfold bone_nodes. assert (C : nth_error (combine bones ts) k = Some (b, joint_trans scale bones b)).
    { revert Hk Ht. generalize (joint_trans scale bones b). clear. intros t. revert ts bones. induction k as [|k IH]; intros [|t' ts] [|b0 bs] Hk Ht; cbn in *; try discriminate; [congruence|].
      apply IH; assumption. }
    rewrite (map_nth_error _ _ _ C). reflexivity. }
  rewrite (gf_nodes _ _ _ F).
  assert (H2 : nth_error (ns ++ bone_nodes ts) (length os + k)%nat = Some (mkNode (bName b) (joint_trans scale bones b) [] None None)).
  { rewrite nth_error_app2 by (rewrite (gf_ns _ _ _ F); lia). rewrite (gf_ns _ _ _ F). replace (length os + k - length os)%nat with k by lia. exact H. }
  rewrite (map_nth_error _ _ _ (numbered_nth _ _ _ H2)). eexists. split; [reflexivity|]. cbn. auto.
Qed.

(** Every node is in the scene. *)
Theorem all_reachable : proper_bones bones -> forall i, (i < length (gdNodes g))%nat -> reachable g i.
Proof.
  intros (_ & HP & rank & HR) i Hi. destruct facts as (ts & ns & ms & ss & gr & F & _). rewrite (nodes_length _ _ _ F) in Hi.
  destruct (Nat.lt_ge_cases i (length os)) as [H|H].
  - revert H. induction i as [i IH] using (well_founded_induction lt_wf). intros H.
    destruct (referenced i) as [Hr|(p & Hp)]; [rewrite (nodes_length _ _ _ F); lia|apply re_root; exact Hr|].
    pose proof (objects_earlier p i H Hp). eapply re_child; [|exact Hp]. apply IH; lia.
  - remember (i - length os)%nat as k eqn:Ek. assert (i = (length os + k)%nat) by lia. subst i. clear Ek H.
    destruct (nth_error bones k) as [b|] eqn:Hb; [|apply nth_error_None in Hb; lia].
    remember (rank (bID b)) as r eqn:Er. revert k b Hi Hb Er. induction r as [r IH] using (well_founded_induction lt_wf). intros k b Hi Hb Er.
    destruct (referenced (length os + k)%nat) as [Hr|(p & Hp)]; [rewrite (nodes_length _ _ _ F); lia|apply re_root; exact Hr|].
    eapply re_child; [|exact Hp]. apply (bone_tree k b Hb) in Hp as (j & -> & (b' & pb & A1 & A2 & A3 & A4)). rewrite Hb in A1. injection A1 as <-.
    apply (IH (rank (bID pb))) with (b := pb); [|apply nth_error_Some in Hi||idtac|exact A2|reflexivity].
    + rewrite A4, Er. rewrite Forall_forall in HR. apply HR; [eapply nth_error_In; exact Hb|exact A3].
    + assert (j < length bones)%nat by (apply nth_error_Some; congruence). lia.
Qed.
End Top.

(** *** Bind poses, in exact arithmetic *)
Section Bind.
Local Open Scope R_scope.
Variables (scale centi eps : R) (ign unlit : bool) (opaque99 rough : R) (tex_alpha : material R -> bool).
Variables (d : document R) (bones : list (bone R)) (sets : list target_list) (g : gdoc R).
Hypothesis E : to_gltf scale centi eps ign unlit opaque99 rough tex_alpha d bones sets = Some g.
Hypothesis HB : proper_bones bones.
Notation base := (length (os ign d sets)).

Theorem joint_world k b : nth_error bones k = Some b -> world_pos g (base + k)%nat (at_scale scale (bPos b)).
Proof.
  destruct HB as (HN & HP & rank & HR).
  remember (rank (bID b)) as r eqn:Er. revert k b Er. induction r as [r IH] using (well_founded_induction lt_wf). intros k b Er Hb.
  destruct (bone_node_at _ _ _ _ _ _ _ _ _ _ _ _ E HN k b Hb) as (n & Hn & _ & Ht & _).
  destruct (bone_tree _ _ _ _ _ _ _ _ _ _ _ _ E HN k b Hb) as (Hr & Hc).
  destruct (Z.le_gt_cases (bParent b) 0) as [H|H].
  - replace (at_scale scale (bPos b)) with (gnTrans n).
    + apply wp_root; [apply Hr; exact H|exact Hn].
    + rewrite Ht. unfold joint_trans. replace (0 <? bParent b)%Z with false by (symmetry; apply Z.ltb_ge; exact H). reflexivity.
  - rewrite Forall_forall in HP, HR. pose proof (nth_error_In _ _ Hb) as Hin. specialize (HP b Hin ltac:(lia)).
    apply in_map_iff in HP as (pb & Hpb & Hi). apply In_nth_error in Hi as (i & Hi).
    assert (Q : bone_parent bones i k) by (exists b, pb; repeat split; try assumption; lia).
    replace (at_scale scale (bPos b)) with (v3add (at_scale scale (bPos pb)) (gnTrans n)).
    + eapply wp_child; [|apply Hc; exists i; split; [reflexivity|exact Q]|exact Hn].
      apply (IH (rank (bID pb))); [|reflexivity|exact Hi]. rewrite Hpb, Er. apply HR; [exact Hin|lia].
    + rewrite Ht. unfold joint_trans. replace (0 <? bParent b)%Z with true by (symmetry; apply Z.ltb_lt; exact H).
      rewrite <- Hpb, (bone_by_id_nth bones i pb HN Hi), Hi. unfold at_scale, v3scaled, v3add, v3sub; mproj; rnum; comps; ring.
Qed.
End Bind.
