(** Proofs about physics bodies in glTF documents (C109). *)
From Coq Require Import String List ZArith Bool Arith Lia Reals Lra.
From Verif.Model Require Import Num NumR Vec Matrix Mqo MqoDoc Normals Gltf Mqo2Gltf VrmConfig GltfPhysics.
From Verif.Spec Require Import GltfSpec VrmSpec GltfPhysicsSpec.
From Verif.Proofs Require Import MatrixLemmas MorphProofs GltfGraph GltfTop VrmSprings.
Import ListNotations.
Local Open Scope R_scope.
Local Open Scope list_scope.

Section Gather.
Variable scale : R.
Definition shaped (b : mbody R) : bool := match mbShapes b with [] => false | _ => true end.
Lemma total_snoc l b : total (l ++ [b]) = total l + mbMass b.
Proof. induction l as [|a l IH]; cbn; [lra|]. rewrite IH. lra. Qed.
Lemma exported q pos l : q = at_scale scale pos -> Forall2 (kept_shape scale q) l (map (export_shape scale pos) l).
Proof.
  intros ->. induction l as [|s l IH]; constructor; [|exact IH]. repeat split. unfold export_shape, at_scale, v3scaled, v3add, v3sub; cbn [xsTrans vx vy vz]. rnum. f_equal; ring.
Qed.
Lemma add_together q pos b l cur : q = at_scale scale pos -> together scale q l cur ->
  together scale q (l ++ (if shaped b then [b] else [])) (add_body scale pos b cur).
Proof.
  intros Q H. unfold add_body, shaped. pose proof (exported q pos (mbShapes b) Q) as F. destruct (mbShapes b) as [|s r] eqn:Eb.
  { cbn. rewrite app_nil_r. exact H. }
  set (x := map (export_shape scale pos) (s :: r)) in *. assert (X : x <> []) by discriminate. clearbody x. destruct x as [|x0 x]; [contradiction|].
  destruct cur as [p|].
  - destruct H as (Hn & Hs & Hm & Hk & Hg & Hx). cbn [together]. split; [destruct l; discriminate|]. split.
    + rewrite flat_map_app. cbn. rewrite app_nil_r, Eb. apply Forall2_app; assumption.
    + split; [rewrite total_snoc; cbn; rewrite Hm; reflexivity|]. split; [|destruct l; [contradiction|]; split; [exact Hg|exact Hx]]. cbn. rewrite orb_true_iff, Hk. split.
      * intros [(c & A & B)|B]; [exists c; split; [apply in_app_iff; auto|exact B]|exists b; split; [apply in_app_iff; right; now left|exact B]].
      * intros (c & A & B). apply in_app_iff in A as [A|[<-|[]]]; [left; eauto|auto].
  - cbn in H. subst l. cbn [app together]. split; [discriminate|]. split; [cbn; rewrite app_nil_r, Eb; exact F|]. split; [cbn; lra|]. cbn. split; [|split; reflexivity]. split; [exists b; auto|].
    intros (c & [<-|[]] & B). exact B.
Qed.
Lemma gather q pos (f : mbody R -> bool) bodies : q = at_scale scale pos -> forall l cur, together scale q l cur ->
  together scale q (l ++ filter (fun b => f b && shaped b) bodies) (fold_left (fun c b => if f b then add_body scale pos b c else c) bodies cur).
Proof.
  intros Q. induction bodies as [|b r IH]; intros l cur H; [cbn; rewrite app_nil_r; exact H|]. cbn [filter fold_left].
  destruct (f b) eqn:Ef; cbn [andb].
  - pose proof (add_together q pos b l cur Q H) as H1. specialize (IH _ _ H1). destruct (shaped b); [|rewrite app_nil_r in IH; exact IH]. rewrite <- app_assoc in IH. exact IH.
  - apply IH. exact H.
Qed.
End Gather.

Section Nodes.
Variables (scale : R) (bones : list (bone R)).
Hypothesis HN : NoDup (map bID bones).
Definition of_bone (bn : bone R) (b : mbody R) : bool := negb (mbBone b =? 0)%Z && (mbBone b =? bID bn)%Z.
Lemma bone_fold base k bn : nth_error bones k = Some bn -> forall bodies nodes cur, nth_error nodes (base + k)%nat = Some cur ->
  nth_error (fold_left (bone_body scale base bones) bodies nodes) (base + k)%nat = Some (fold_left (fun c b => if of_bone bn b then add_body scale (bPos bn) b c else c) bodies cur).
Proof.
  intros Hk. induction bodies as [|b r IH]; intros nodes cur Hc; [exact Hc|]. cbn [fold_left]. apply IH. clear IH r. unfold bone_body, of_bone.
  destruct (Z.eqb_spec (mbBone b) 0) as [E0|E0]; [exact Hc|]. cbn [negb andb]. destruct (Mqo2Gltf.bone_node base bones (mbBone b)) as [n|] eqn:En.
  - unfold Mqo2Gltf.bone_node in En. destruct (bone_by_id bones (mbBone b)) as [i|] eqn:Ei; [|discriminate]. injection En as <-.
    replace (base + i - base)%nat with i by lia. destruct (last_index_nth _ _ _ Ei) as (b1 & Hb1 & E1). apply Z.eqb_eq in E1. rewrite Hb1.
    rewrite list_upd_nth, Hc. destruct (Z.eqb_spec (mbBone b) (bID bn)) as [E2|E2].
    + assert (Ki : i = k) by (rewrite E2, (bone_by_id_nth bones k bn HN Hk) in Ei; congruence). subst i. rewrite Hk in Hb1. injection Hb1 as <-. rewrite Nat.eqb_refl. reflexivity.
    + destruct (Nat.eqb_spec (base + k) (base + i)) as [E3|E3]; [|reflexivity]. assert (i = k) by lia. subst i. rewrite Hk in Hb1. injection Hb1 as <-. congruence.
  - destruct (Z.eqb_spec (mbBone b) (bID bn)) as [E2|E2]; [|exact Hc]. unfold Mqo2Gltf.bone_node in En. rewrite E2, (bone_by_id_nth bones k bn HN Hk) in En. discriminate.
Qed.
End Nodes.

Section Doc.
Variables (scale centi eps : R) (ign unlit : bool) (opaque99 rough : R) (tex_alpha : material R -> bool).
Variables (d : document R) (bones : list (bone R)) (sets : list target_list) (g : gdoc R) (bodies : list (mbody R)).
Hypothesis E : to_gltf scale centi eps ign unlit opaque99 rough tex_alpha d bones sets = Some g.
Hypothesis HB : proper_bones bones.
Notation objs := (exported_objects ign sets (fix_ids 0 (dObjects d))).

Lemma objs_zero o l : forall ms ss ns ms' ss' i n objs0 base mm, conv_objects scale centi eps unlit objs0 sets bones base mm l ms ss = Some (ns, ms', ss') ->
  nth_error ns i = Some n -> o = v3zero -> gnTrans n = o.
Proof.
  intros ms ss ns ms' ss' i n objs0 base mm H Hi ->. revert ms ss ns ms' ss' i H Hi. induction l as [|ob r IH]; intros ms ss ns ms' ss' i H Hi; cbn [conv_objects] in H.
  { injection H as <- <- <-. destruct i; discriminate. }
  destruct (morph_objects objs0 sets ob) as [morphs|]; [|discriminate].
  assert (Next : forall n0 ms1 ss1, gnTrans n0 = v3zero -> match conv_objects scale centi eps unlit objs0 sets bones base mm r ms1 ss1 with
            | Some (ns, ms', ss') => Some (n0 :: ns, ms', ss') | None => None end = Some (ns, ms', ss') -> gnTrans n = v3zero).
  { intros n0 ms1 ss1 Z0 Hn. destruct (conv_objects scale centi eps unlit objs0 sets bones base mm r ms1 ss1) as [[[a b] c]|] eqn:Er; [|discriminate].
    injection Hn as <- <- <-. destruct i as [|i]; [injection Hi as <-; exact Z0|]. cbn in Hi. eapply IH; [exact Er|exact Hi]. }
  destruct (oVisible ob); [|eapply Next; [|exact H]; reflexivity].
  destruct (convert_object _ _ _ _ _ _ _ _ _) as [[mesh joints]|]; [|discriminate].
  destruct (negb (Nat.eqb (length joints) 0)).
  - destruct (make_skin _ _ _) as [s|]; [|discriminate]. eapply Next; [|exact H]; reflexivity.
  - eapply Next; [|exact H]; reflexivity.
Qed.
Lemma object_world i : (i < length objs)%nat -> world_pos g i (mkV3 0 0 0).
Proof.
  destruct HB as (HN & _). destruct (facts _ _ _ _ _ _ _ _ _ _ _ _ E HN) as (ts & ns & ms & ss & gr & F & C & _).
  change (length objs) with (length (os ign d sets)). induction i as [i IH] using (well_founded_induction lt_wf). intros H.
  assert (Hl : (i < length (gdNodes g))%nat) by (rewrite (nodes_length _ _ _ _ _ _ _ _ _ F); lia).
  assert (Hn : exists n, nth_error (gdNodes g) i = Some n /\ gnTrans n = mkV3 0 0 0).
  { destruct (nth_error ns i) as [n0|] eqn:En; [|apply nth_error_None in En; rewrite (gf_ns _ _ _ _ _ _ _ _ _ F) in En; lia].
    assert (H2 : nth_error (ns ++ bone_nodes bones ts) i = Some n0) by (rewrite nth_error_app1; [exact En|apply nth_error_Some; congruence]).
    rewrite (gf_nodes _ _ _ _ _ _ _ _ _ F), (map_nth_error _ _ _ (numbered_nth _ _ _ H2)). eexists. split; [reflexivity|]. cbn. eapply objs_zero; [exact C|exact En|reflexivity]. }
  destruct Hn as (n & Hn & Ht). destruct (referenced _ _ _ _ _ _ _ _ _ _ _ _ E HN i Hl) as [Hr|(p & Hp)].
  - rewrite <- Ht. apply wp_root; assumption.
  - pose proof (objects_earlier _ _ _ _ _ _ _ _ _ _ _ _ E HN p i H Hp) as L.
    replace (mkV3 0 0 0) with (v3add (mkV3 0 0 0) (gnTrans n)); [|rewrite Ht; unfold v3add; cbn [vx vy vz]; rnum; f_equal; ring].
    eapply wp_child; [apply IH; [exact L|exact (Nat.lt_trans _ _ _ L H)]|exact Hp|exact Hn].
Qed.

Lemma fold_nodes_length base l : forall nodes, length (fold_left (bone_body scale base bones) l nodes) = length nodes.
Proof.
  induction l as [|b r IH]; intros nodes; [reflexivity|]. cbn. rewrite IH. unfold bone_body. destruct (mbBone b =? 0)%Z; [reflexivity|].
  destruct (Mqo2Gltf.bone_node base bones (mbBone b)); [|reflexivity]. destruct (nth_error bones _); [apply list_upd_length|reflexivity].
Qed.
Lemma physics_length : length (gltf_physics scale ign d bones sets bodies) = length (gdNodes g).
Proof.
  destruct HB as (HN & _). destruct (facts _ _ _ _ _ _ _ _ _ _ _ _ E HN) as (ts & ns & ms & ss & gr & F & C & _).
  rewrite (nodes_length _ _ _ _ _ _ _ _ _ F). unfold gltf_physics. fold (GltfTop.objs d). rewrite (target_objects_eq scale centi eps ign unlit opaque99 rough tex_alpha d bones sets g E).
  rewrite app_length, map_length, skipn_length, fold_nodes_length, repeat_length. lia.
Qed.
Lemma physics_nodes n x : nth_error (gltf_physics scale ign d bones sets bodies) n = Some x ->
  exists q l f, world_pos g n q /\ l = filter f bodies /\ (forall b, In b bodies -> f b = true <-> belongs objs bones n b /\ mbShapes b <> []) /\ together scale q l x.
Proof.
  intros H. destruct HB as (HN & _). unfold gltf_physics in H. fold (GltfTop.objs d) in H. rewrite (target_objects_eq scale centi eps ign unlit opaque99 rough tex_alpha d bones sets g E) in H. set (o := os ign d sets) in *.
  assert (Sh : forall b, shaped b = true <-> mbShapes b <> []) by (intros b; unfold shaped; destruct (mbShapes b); split; congruence).
  assert (Z0 : together scale (at_scale scale (mkV3 0 0 0)) [] None) by reflexivity.
  destruct (Nat.lt_ge_cases n (length o)) as [L|L].
  - rewrite nth_error_app1 in H by (rewrite map_length; exact L). destruct (nth_error o n) as [ob|] eqn:Eo; [|apply nth_error_None in Eo; lia].
    rewrite (map_nth_error _ _ _ Eo) in H. injection H as <-. set (f := fun b : mbody R => negb (mbObj b =? 0)%Z && (mbObj b =? oUID ob)%Z).
    exists (mkV3 0 0 0), (filter (fun b => f b && shaped b) bodies), (fun b => f b && shaped b). split; [apply object_world; exact L|]. split; [reflexivity|]. split.
    + intros b _. rewrite andb_true_iff, Sh. unfold f. rewrite andb_true_iff, negb_true_iff, Z.eqb_neq, Z.eqb_eq. split.
      * intros ((A & B) & C). split; [left; exists ob; auto|exact C].
      * intros ([(o' & A1 & A2 & A3)|(k & bn & A1 & _)] & C); [|change (length objs) with (length o) in A1; lia]. change (nth_error o n = Some o') in A1. rewrite Eo in A1. injection A1 as <-. auto.
    + unfold object_bodies. assert (Q : mkV3 0 0 0 = at_scale scale v3zero) by (unfold at_scale, v3zero; cbn [vx vy vz]; rnum; f_equal; ring).
      exact (gather scale _ v3zero f bodies Q [] None eq_refl).
  - rewrite nth_error_app2 in H by (rewrite map_length; exact L). rewrite map_length in H.
    set (k := (n - length o)%nat) in *. assert (Hn : n = (length o + k)%nat) by (unfold k; lia). clearbody k. subst n.
    assert (Sk : forall {A} m (l : list A) j, nth_error (skipn m l) j = nth_error l (m + j)%nat) by (clear; intros A m; induction m as [|m IH]; intros l j; [reflexivity|]; destruct l; [destruct j; reflexivity|apply IH]).
    rewrite Sk in H. assert (Lk : (k < length bones)%nat).
    { assert (X : (length o + k < length (fold_left (bone_body scale (length o) bones) bodies (repeat None (length o + length bones))))%nat) by (apply nth_error_Some; rewrite H; discriminate).
      rewrite fold_nodes_length, repeat_length in X. lia. }
    destruct (nth_error bones k) as [bn|] eqn:Eb; [|apply nth_error_None in Eb; lia].
    rewrite (bone_fold scale bones HN (length o) k bn Eb bodies _ None) in H by (rewrite nth_error_repeat by lia; reflexivity). injection H as <-.
    exists (at_scale scale (bPos bn)), (filter (fun b => of_bone bn b && shaped b) bodies), (fun b => of_bone bn b && shaped b).
    split; [exact (joint_world _ _ _ _ _ _ _ _ _ _ _ _ E HB k bn Eb)|]. split; [reflexivity|]. split.
    + intros b _. rewrite andb_true_iff, Sh. unfold of_bone. rewrite andb_true_iff, negb_true_iff, Z.eqb_neq, Z.eqb_eq. split.
      * intros ((A & B) & C). split; [right; exists k, bn; auto|exact C].
      * intros ([(o' & A1 & A2 & A3)|(k' & bn' & A1 & A2 & A3 & A4)] & C).
        { change (nth_error o (length o + k) = Some o') in A1. assert (X : (length o + k < length o)%nat) by (apply nth_error_Some; congruence). lia. }
        change (length objs) with (length o) in A1. assert (k' = k) by lia. subst k'. rewrite Eb in A2. injection A2 as <-. auto.
    + exact (gather scale _ (bPos bn) (of_bone bn) bodies eq_refl [] None eq_refl).
Qed.

(** *** Colliders of avatars *)
Notation xs := (gltf_physics scale ign d bones sets bodies).
Notation cs := (collider_nodes g xs).
Lemma cs_nth id c : nth_error cs id = Some c <-> exists n x, nth_error (gdNodes g) id = Some n /\ nth_error xs id = Some x /\ c = collider_node n x.
Proof.
  unfold collider_nodes. rewrite nth_error_map. assert (Cn : forall {A B} (l : list A) (m : list B) i, nth_error (combine l m) i = match nth_error l i, nth_error m i with Some a, Some b => Some (a, b) | _, _ => None end).
  { clear. induction l as [|a l IH]; intros [|b m] [|i]; try reflexivity; cbn; [destruct (nth_error l i); reflexivity|apply IH]. }
  rewrite Cn. destruct (nth_error (gdNodes g) id) as [n|], (nth_error xs id) as [x|]; cbn; split.
  all: try discriminate. all: try (intros (n' & x' & A & B & C); discriminate).
  - intros H. injection H as <-. exists n, x. auto.
  - intros (n' & x' & A & B & C). congruence.
Qed.
Lemma cs_names : map cnName cs = map gnName (gdNodes g).
Proof.
  unfold collider_nodes. rewrite map_map. cbn. rewrite <- (map_map fst gnName). f_equal. pose proof physics_length as L. revert L. generalize xs, (gdNodes g). clear. intros l m. revert l.
  induction m as [|a m IH]; intros [|b l] L; try discriminate L; [reflexivity|]. cbn. f_equal. apply IH. now injection L.
Qed.
Lemma kept_round q (ss : list (mshape R)) (ls : list (xshape R)) : Forall2 (kept_shape scale q) ss ls -> forall r o,
  In (r, o) (flat_map shape_collider (map (fun s => mkCS (xsType s) (Some (xsScale s)) (Some (xsTrans s))) ls)) <->
  exists s, In s ss /\ (shType s = "SPHERE" \/ shType s = "CAPSULE")%string /\ r = vx (shSize s) * scale /\ r <> 0 /\ v3add q o = at_scale scale (shPos s).
Proof.
  intros F r o. rewrite in_flat_map. setoid_rewrite shape_in. unfold round. split.
  - intros (c & Hc & Ht & (sc & Hsc & Hr & Hz) & Htr). apply in_map_iff in Hc as (x & <- & Hx). cbn in *. injection Hsc as <-.
    destruct Htr as [Htr|[Htr _]]; [|discriminate]. injection Htr as <-.
    assert (X : exists s, In s ss /\ kept_shape scale q s x) by (clear - F Hx; induction F as [|a b l l' P F IH]; [destruct Hx|]; destruct Hx as [<-|Hx]; [exists a; split; [now left|exact P]|destruct (IH Hx) as (s & A & B); exists s; split; [now right|exact B]]).
    destruct X as (s & Hs & K1 & K2 & K3 & K4). exists s. split; [exact Hs|]. rewrite <- K1. split; [exact Ht|]. split; [rewrite <- Hr, K2; reflexivity|].
    split; [|exact K4]. intros Z0. change (Reqb r 0 = false) in Hz. unfold Reqb in Hz. destruct (Req_EM_T r 0); [discriminate|contradiction].
  - intros (s & Hs & Ht & Hr & Hz & Ho). assert (X : exists x, In x ls /\ kept_shape scale q s x) by (clear - F Hs; induction F as [|a b l l' P F IH]; [destruct Hs|]; destruct Hs as [<-|Hs]; [exists b; split; [now left|exact P]|destruct (IH Hs) as (x & A & B); exists x; split; [now right|exact B]]).
    destruct X as (x & Hx & K1 & K2 & K3 & K4). eexists. split; [apply in_map; exact Hx|]. cbn. rewrite K1. split; [exact Ht|]. split.
    + exists (xsScale x). split; [reflexivity|]. rewrite K2. cbn. split; [rnum; congruence|]. change (Reqb r 0 = false). unfold Reqb. destruct (Req_EM_T r 0); [contradiction|reflexivity].
    + left. f_equal. rewrite <- Ho in K4. clear - K4. destruct q, o, (xsTrans x). unfold v3add in K4. cbn in K4. injection K4 as A B C. f_equal; lra.
Qed.
Lemma world_cases n t : world_pos g n t -> exists m, nth_error (gdNodes g) n = Some m /\
  (In n (gdRoots g) /\ t = gnTrans m \/ exists p u, world_pos g p u /\ child_of g p n /\ t = v3add u (gnTrans m)).
Proof. intros [i m Hr Hm|p c m u Hp Hc Hm]; exists m; (split; [exact Hm|]); [left; auto|right; exists p, u; auto]. Qed.
Lemma world_unique n q : world_pos g n q -> forall t, world_pos g n t -> q = t.
Proof.
  destruct HB as (HN & _). intros H. induction H as [i m Hr Hm|p c m u Hp IH Hc Hm]; intros t H'; apply world_cases in H' as (m' & Hm' & [(Hr' & ->)|(p' & u' & Hp' & Hc' & ->)]).
  - congruence.
  - exfalso. exact (root_not_child _ _ _ _ _ _ _ _ _ _ _ _ E HN _ _ Hr Hc').
  - exfalso. exact (root_not_child _ _ _ _ _ _ _ _ _ _ _ _ E HN _ _ Hr' Hc).
  - pose proof (one_parent _ _ _ _ _ _ _ _ _ _ _ _ E HN _ _ _ Hc Hc') as <-. rewrite (IH _ Hp'). congruence.
Qed.
Lemma colliders_placed : NoDup (map gnName (gdNodes g)) -> forall id r o,
  (exists l, In (l, id) (apply_colliders (map cnName cs) (convert_colliders cs)) /\ In (r, o) l) <->
  exists b s q, In b bodies /\ belongs objs bones id b /\ In s (mbShapes b) /\ (exists k, In k bodies /\ belongs objs bones id k /\ mbShapes k <> [] /\ mbKinematic k = true) /\
    world_pos g id q /\ (shType s = "SPHERE" \/ shType s = "CAPSULE")%string /\ r = vx (shSize s) * scale /\ r <> 0 /\ v3add q o = at_scale scale (shPos s).
Proof.
  intros ND id r o. pose proof ND as ND'. rewrite <- cs_names in ND'. split.
  - intros (l & Hl & Hr). apply colliders_exact in Hl as (c & shapes & Hc & Eb & El & _ & Hi). apply In_nth_error in Hc as (j & Hj).
    assert (j = id).
    { apply last_index_nth in Hi as (nm & Hnm & En). apply String.eqb_eq in En. eapply NoDup_nth_error; [exact ND'|apply nth_error_Some; rewrite nth_error_map, Hj; discriminate|].
      rewrite nth_error_map, Hj, Hnm. cbn. congruence. }
    subst j. apply cs_nth in Hj as (n & x & Hn & Hx & ->). cbn in Eb. destruct x as [p|]; [|discriminate]. cbn in Eb. injection Eb as Es <-.
    destruct (physics_nodes id _ Hx) as (q & l0 & f & Hq & El0 & Hf & Hto). destruct Hto as (Hne & Hs & Hm & Hk). rewrite El in Hr. destruct (proj1 (kept_round q _ _ Hs r o) Hr) as (s & Hs1 & Ht & Hrad & Hz & Ho).
    apply in_flat_map in Hs1 as (b & Hb & Hs1). subst l0. apply filter_In in Hb as [Hb1 Hb2]. apply Hf in Hb2 as [Hb2 _]; [|exact Hb1].
    apply (proj1 Hk) in Es; destruct Es as (k & Hk1 & Hk2). apply filter_In in Hk1 as [Hk1 Hk3]. apply Hf in Hk3 as [Hk3 Hk4]; [|exact Hk1].
    exists b, s, q. repeat (split; [first [assumption|exists k; auto]|]). exact Ho.
  - intros (b & s & q & Hb & Hbel & Hs & (k & Hk1 & Hk2 & Hk3 & Hk4) & Hq & Ht & Hr & Hz & Ho).
    destruct (nth_error (gdNodes g) id) as [n|] eqn:Hn; [|exfalso; apply world_cases in Hq as (m & Hm & _); congruence].
    destruct (nth_error xs id) as [x|] eqn:Hx; [|exfalso; apply nth_error_None in Hx; rewrite physics_length in Hx; assert (id < length (gdNodes g))%nat by (apply nth_error_Some; congruence); lia].
    destruct (physics_nodes id _ Hx) as (q' & l0 & f & Hq' & El0 & Hf & Hto). rewrite <- (world_unique _ _ Hq _ Hq') in Hto. subst l0.
    assert (Hin : In b (filter f bodies)) by (apply filter_In; split; [exact Hb|apply Hf; [exact Hb|split; [exact Hbel|intros C; rewrite C in Hs; destruct Hs]]]).
    assert (Hkin : In k (filter f bodies)) by (apply filter_In; split; [exact Hk1|apply Hf; auto]).
    destruct x as [p|]; [|cbn in Hto; rewrite Hto in Hin; destruct Hin]. destruct Hto as (Hne & Hss & Hm & Hst).
    assert (St : xbStatic p = true) by (apply Hst; exists k; auto).
    assert (Hcol : In (r, o) (flat_map shape_collider (map (fun s => mkCS (xsType s) (Some (xsScale s)) (Some (xsTrans s))) (xbShapes p)))).
    { apply (proj2 (kept_round q _ _ Hss r o)). exists s. split; [apply in_flat_map; exists b; auto|auto]. }
    eexists. split; [|exact Hcol]. eapply colliders_own; [exact ND'|apply cs_nth; exists n, (Some p); auto|cbn; rewrite St; reflexivity|reflexivity|].
    intros C. rewrite C in Hcol. destruct Hcol.
Qed.
End Doc.
