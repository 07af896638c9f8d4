(** From MQO to glTF: every triangle of a visible object is drawn, and nothing else. *)
From Coq Require Import String List ZArith Bool Lia Permutation PeanoNat.
From Verif.Model Require Import Num Vec Matrix Mqo MqoDoc Mmd2Mqo Gltf Mqo2Gltf.
From Verif Require Import Spec.Surface Spec.MqoSpec Spec.NormalsSpec Spec.MmdConvSpec Spec.GltfSpec Spec.DrawnSpec Spec.SceneDrawnSpec.
From Verif Require Import Proofs.Mqo2MmdProofs Proofs.Mmd2MqoFaces Proofs.Mmd2MqoProofs Proofs.GltfTop Proofs.GltfDoc Proofs.GltfProps Proofs.DrawnConv Proofs.DrawnLemmas Proofs.DrawnProofs.
Import ListNotations.
Local Open Scope Z_scope.
Local Open Scope list_scope.

Lemma combine_app {A B} (a1 a2 : list A) (b1 b2 : list B) : length a1 = length b1 -> combine (a1 ++ a2) (b1 ++ b2) = combine a1 b1 ++ combine a2 b2.
Proof. revert b1. induction a1 as [|x a1 IH]; intros [|y b1] H; try discriminate H; [reflexivity|]. cbn [app combine]. rewrite IH; [reflexivity|]. injection H as H. exact H. Qed.

Section Object.
Context {T : Type} {N : Num T}.
Variables (scale eps centi : T) (unlit : bool) (bones : list (bone T)) (base : nat).
Hypothesis ND : NoDup (map bID bones).

Lemma nodes_at_eq o x : nodes_at centi bones base o x = flat_map (by_node centi o x) (combine (own_nodes o base 0 bones) (lists_of o bones)).
Proof.
  unfold nodes_at, own_nodes.
  assert (G : forall bs k, flat_map (fun ib => flat_map (fun l => map (fun e => (Some (base + fst ib)%nat, nmul (snd e) centi)) (filter (fun e => get_vertex_index_by_id o (fst e) =? x) (snd l))) (filter (fun l => fst l =? oUID o) (bWeights (snd ib)))) (combine (seq k (length bs)) bs)
    = flat_map (by_node centi o x) (combine (flat_map (fun p => map (fun _ => (base + fst p)%nat) (lists_in o (snd p))) (combine (seq k (length bs)) bs)) (lists_of o bs))).
  { induction bs as [|b r IH]; intros k; [reflexivity|]. unfold lists_of in *. cbn [length seq combine flat_map fst snd]. rewrite combine_app by (rewrite !map_length; reflexivity).
    rewrite flat_map_app, IH. f_equal. unfold lists_in. generalize (filter (fun l => fst l =? oUID o) (bWeights b)). intros ls. induction ls as [|e l IHl]; [reflexivity|]. cbn [flat_map map combine fst snd]. rewrite IHl. reflexivity. }
  apply (G bones O).
Qed.

Lemma corner_shown o tris ws morphs (q : prim T) sk f i id :
  (forall y s, zidx ws y = Some s -> slots_for (influences centi o bones y) s) ->
  (gpSkin q = None <-> lists_of o bones = []) -> (gpNormals q = None <-> oShading o <= 0 \/ unlit = true) ->
  (lists_of o bones = [] \/ exists s, sk = Some s /\ exports_skin base bones o s) ->
  exports_corner scale eps o ws morphs (given_normal tris) q f i id -> shows_corner scale eps centi unlit bones base o tris f i (corner_at sk q id).
Proof.
  intros SL SK SN HS (x & E1 & (pos & qq & P1 & P2 & P3 & _ & P5) & U & Hn). exists x, qq. unfold corner_at. cbn [gcPos gcUV gcNormal gcSkin]. rewrite P1. cbn [at_opt].
  split; [exact E1|]. split; [exact P2|]. split; [exact P3|]. split; [|split].
  - intros Hu. destruct (U Hu) as (uvs & u & t & G1 & G2 & G3 & G4). rewrite G1. exists u, t. auto.
  - destruct (Z.leb_spec (oShading o) 0) as [L|L]; cbn [orb].
    + rewrite (proj2 SN) by auto. reflexivity.
    + destruct unlit; [rewrite (proj2 SN) by auto; reflexivity|]. destruct (gpNormals q) as [ns|]; [|destruct (proj1 SN eq_refl) as [C|C]; [lia|discriminate]].
      destruct (Hn ns eq_refl) as (n & N1 & N2). exists n. auto.
  - rewrite nodes_at_eq. intros Hl. destruct HS as [HS|(s & -> & HS)].
    + rewrite HS in *. rewrite (proj2 SK eq_refl). cbn [at_opt]. exists []. split; [|constructor]. destruct (own_nodes o base 0 bones); reflexivity.
    + unfold exports_skin in HS. apply owners_nodes in HS; [|exact ND]. rewrite HS. destruct (gpSkin q) as [skl|].
      * destruct (P5 skl eq_refl) as (s0 & W1 & W2). cbn [at_opt]. rewrite W2. destruct (SL x s0 W1) as (_ & _ & Fit).
        assert (LJ : length (own_nodes o base 0 bones) = length (lists_of o bones)).
        { unfold own_nodes, lists_of. generalize 0%nat. clear. induction bones as [|b r IH]; intros n; [reflexivity|]. cbn [length seq combine flat_map fst snd]. rewrite !app_length, !map_length, IH. reflexivity. }
        pose proof (influences_nodes centi o bones x _ LJ) as IN. rewrite <- IN in *. rewrite map_length in Hl.
        rewrite (Fit Hl), map_app. eexists. split; [reflexivity|]. rewrite Forall_map. apply Forall_forall. intros e He. apply repeat_spec in He. subst e. reflexivity.
      * rewrite (proj1 SK eq_refl) in *. cbn [at_opt]. exists []. split; [|constructor]. destruct (own_nodes o base 0 bones); reflexivity.
Qed.

Lemma prim_shown o tris ws morphs mm (q : prim T) sk :
  (forall y s, zidx ws y = Some s -> slots_for (influences centi o bones y) s) ->
  exports_faces scale eps o ws morphs (given_normal tris) mm tris q ->
  (gpSkin q = None <-> lists_of o bones = []) -> (gpNormals q = None <-> oShading o <= 0 \/ unlit = true) ->
  (lists_of o bones = [] \/ exists s, sk = Some s /\ exports_skin base bones o s) ->
  Forall2 (shows_tri scale eps centi unlit bones base mm) (map (fun f => (o, tris, f)) (filter (fun f => okey (mm (fMaterial f)) (gpMaterial q)) tris)) (prim_tris sk q).
Proof.
  intros SL (kk & trs & Hk & Hi & G) SK SN HS. unfold prim_tris. rewrite Hi, Hk.
  assert (G3 : Forall (fun t => exists a b c, t = [a; b; c]) trs).
  { apply Forall_forall. intros t Ht. destruct (GltfProps.forall2_in_r _ _ _ _ G Ht) as (f & _ & a & b & c & -> & _). eauto. }
  pose proof (triples_concat trs G3) as G4.
  assert (G5 : Forall2 (fun f t => mm (fMaterial f) = Some kk /\ exports_face scale eps o ws morphs (given_normal tris) q f t) (filter (fun f => okey (mm (fMaterial f)) (Some kk)) tris) trs).
  { assert (E : forall l, filter (fun f : face T => okey (mm (fMaterial f)) (Some kk)) l = filter (fun f => match mm (fMaterial f) with Some k' => k' =? kk | None => false end) l).
    { intros l. apply filter_ext. intros f. destruct (mm (fMaterial f)); reflexivity. }
    rewrite E. set (P := fun f : face T => match mm (fMaterial f) with Some k' => k' =? kk | None => false end) in *.
    assert (Hin : Forall (fun f => P f = true) (filter P tris)) by (apply Forall_forall; intros f Hf; apply filter_In in Hf; tauto).
    revert Hin G. clear. generalize (filter P tris) as l. intros l Hin G. induction G as [|f t l ts R G IH]; [constructor|]. inversion Hin as [|? ? H1 H2]; subst. constructor; [|apply IH; exact H2]. split; [|exact R].
    unfold P in H1. destruct (mm (fMaterial f)) as [k'|]; [|discriminate]. apply Z.eqb_eq in H1. congruence. }
  assert (H2 : Forall2 (fun f u => shows_tri scale eps centi unlit bones base mm (o, tris, f) (let '(a, b, c) := u in (Some kk, (corner_at sk q a, corner_at sk q b, corner_at sk q c)))) (filter (fun f => okey (mm (fMaterial f)) (Some kk)) tris) (triples (concat trs))).
  { eapply forall2_trans; [|exact G5|exact G4]. cbn. intros f t [[a1 b1] c1] (Em & a & b & c & Et & A & B & C) ->. injection Et as -> -> ->. cbn [fst snd]. split; [symmetry; exact Em|]. split; [discriminate|].
    split; [|split]; eapply corner_shown; eassumption. }
  clear - H2. induction H2 as [|f u l l' R H IH]; [constructor|]. cbn [map]. constructor; [destruct u as [[a b] c]; exact R|exact IH].
Qed.

Lemma mesh_shown objs sets mm o mesh sk : exports_mesh scale eps centi unlit objs sets bones mm o mesh ->
  (lists_of o bones = [] \/ exists s, sk = Some s /\ exports_skin base bones o s) ->
  exists tris l, triangles_of o tris /\ Permutation l (filter (fun q => odef (mm (fMaterial (snd q)))) (map (fun f => (o, tris, f)) tris)) /\
    Forall2 (shows_tri scale eps centi unlit bones base mm) l (flat_map (prim_tris sk) (gmPrims mesh)).
Proof.
  intros (tris & ws & morphs & TR & _ & _ & SL & _ & _ & ND' & K & FP & _) HS.
  exists tris, (flat_map (fun km => map (fun f => (o, tris, f)) (filter (fun f => okey (mm (fMaterial f)) km) tris)) (map gpMaterial (gmPrims mesh))). split; [exact TR|]. split.
  - assert (E : forall l, filter (fun q : object T * list (face T) * face T => odef (mm (fMaterial (snd q)))) (map (fun f => (o, tris, f)) l) = map (fun f => (o, tris, f)) (filter (fun f => odef (mm (fMaterial f))) l)).
    { induction l as [|f l IH]; [reflexivity|]. cbn [map filter snd]. destruct (odef _); cbn [map]; rewrite IH; reflexivity. }
    rewrite E. assert (E2 : forall ks, flat_map (fun km => map (fun f => (o, tris, f)) (filter (fun f => okey (mm (fMaterial f)) km) tris)) ks = map (fun f => (o, tris, f)) (flat_map (fun km => filter (fun f => okey (mm (fMaterial f)) km) tris) ks)).
    { induction ks as [|k ks IH]; [reflexivity|]. cbn [flat_map]. rewrite map_app, IH. reflexivity. }
    rewrite E2. apply Permutation_map. apply group_perm; [exact ND'|]. intros f Hf Hk. destruct (mm (fMaterial f)) as [kk|] eqn:Ek; [|congruence]. apply K. eauto.
  - clear K ND'. induction (gmPrims mesh) as [|q r IH]; [constructor|]. inversion FP as [|? ? (P1 & P2 & P3) FP']; subst. cbn [map flat_map]. apply Forall2_app; [|apply IH; exact FP'].
    eapply prim_shown; eassumption.
Qed.
End Object.

Section Document.
Context {T : Type} {N : Num T}.
Variables (scale centi eps : T) (ign unlit : bool) (opaque99 rough : T) (tex_alpha : material T -> bool).
Variables (d : document T) (bones : list (bone T)) (sets : list target_list) (g : gdoc T).
Hypothesis EG : to_gltf scale centi eps ign unlit opaque99 rough tex_alpha d bones sets = Some g.
Hypothesis ND : NoDup (map bID bones).
Hypothesis HW : Forall well_indexed (dObjects d).
Notation eos := (exported_objects ign sets (fix_ids 0 (dObjects d))).
Hypothesis FEW : Forall (fun o => Z.of_nat (length (lists_of o bones)) <= 65536) eos.

Theorem doc_drawn : exists mm tss l, renumbers eos (dMaterials d) (gdMats g) mm /\ Forall2 (fun o ts => if oVisible o then triangles_of o ts else ts = []) eos tss /\
  Permutation l (filter (fun q => match mm (fMaterial (snd q)) with Some _ => true | None => false end) (owned eos tss)) /\
  Forall2 (shows_tri scale eps centi unlit bones (length eos) mm) l (drawn g).
Proof.
  destruct (exports_all scale centi eps ign unlit opaque99 rough tex_alpha d bones sets g EG ND HW FEW) as (mm & RN & X).
  change (GltfTop.os ign d sets) with eos in *. exists mm.
  rewrite (drawn_objects scale centi eps ign unlit opaque99 rough tex_alpha sets d bones g EG).
  assert (Hn : (length eos <= length (gdNodes g))%nat).
  { destruct (Nat.le_gt_cases (length eos) (length (gdNodes g))) as [|L]; [assumption|]. exfalso.
    destruct (nth_error eos (length (gdNodes g))) as [o|] eqn:Eo; [|apply nth_error_None in Eo; lia]. destruct (X _ _ Eo) as (n & Hn & _). assert (nth_error (gdNodes g) (length (gdNodes g)) = None) by (apply nth_error_None; lia). congruence. }
  assert (Y : Forall2 (fun o n => exports_object scale eps centi unlit (fix_ids 0 (dObjects d)) sets bones (length eos) mm g o n) eos (firstn (length eos) (gdNodes g))).
  { apply (nth_forall2 bones); [exact Hn|exact X]. }
  clear X Hn.
  assert (Z0 : exists tss l, Forall2 (fun o ts => if oVisible o then triangles_of o ts else ts = []) eos tss /\
    Permutation l (filter (fun q => odef (mm (fMaterial (snd q)))) (owned eos tss)) /\ Forall2 (shows_tri scale eps centi unlit bones (length eos) mm) l (flat_map (node_tris g) (firstn (length eos) (gdNodes g)))).
  { revert Y. generalize (firstn (length eos) (gdNodes g)) as ns. generalize (length eos) as B. clear RN. generalize eos as es. intros es B ns Y. induction Y as [|o n es ns Y1 Y2 (tss & l & A1 & A2 & A3)].
    { exists [], []. repeat split; constructor. }
    destruct Y1 as (_ & _ & V0 & V1). unfold owned in *. destruct (oVisible o) eqn:Ev.
    - destruct (V1 eq_refl) as ((mesh & M & Hm) & Hs).
      destruct (mesh_shown scale eps centi unlit bones B ND _ _ mm o mesh (ref (gdSkins g) (gnSkin n)) M) as (tris & l1 & T1 & P1 & F1).
      { destruct Hs as [(Hs & _)|(_ & si & s & S1 & S2 & S3)]; [left; exact Hs|right]. exists s. rewrite S1. cbn [ref]. auto. }
      exists (tris :: tss), (l1 ++ l). split; [constructor; [rewrite Ev; exact T1|exact A1]|]. cbn [combine flat_map fst snd]. rewrite filter_app. split; [apply Permutation_app; assumption|].
      apply Forall2_app; [|exact A3]. unfold node_tris. destruct Hm as [(Hm & ->)|(_ & mi & -> & Hm)]; cbn [ref]; [rewrite Hm in F1|rewrite Hm]; exact F1.
    - exists ([] :: tss), l. split; [constructor; [rewrite Ev; reflexivity|exact A1]|]. cbn [combine flat_map fst snd map app]. split; [exact A2|]. cbn [flat_map]. unfold node_tris at 1. destruct (V0 eq_refl) as (-> & _). exact A3. }
  destruct Z0 as (tss & l & A1 & A2 & A3). exists tss, l. auto.
Qed.
End Document.
