(** From PMX to glTF: every face is drawn, and nothing else. *)
From Coq Require Import String List ZArith Bool Lia Permutation PeanoNat.
From Verif.Model Require Import Num Vec Matrix Mqo MqoDoc Mmd2Mqo Gltf Mqo2Gltf.
From Verif Require Import Spec.Surface Spec.MqoSpec Spec.NormalsSpec Spec.MmdConvSpec Spec.GltfSpec Spec.DrawnSpec.
From Verif Require Import Proofs.Mqo2MmdProofs Proofs.Mmd2MqoFaces Proofs.Mmd2MqoProofs Proofs.GltfTop Proofs.GltfDoc Proofs.GltfProps Proofs.DrawnConv Proofs.DrawnLemmas.
Import ListNotations.
Local Open Scope Z_scope.
Local Open Scope list_scope.

Section Object.
Context {T : Type} {N : Num T}.
Variables (scale eps hundred centi : T) (unlit : bool) (move turn : vec3 T -> vec3 T).
Variables (p : pmodel T) (bw : bone_weights (T := T)).
Hypothesis three : Forall (fun f => length f = 3%nat) (pFaces p).

(** What an object of the document shows. *)
Record Shown (o : object T) (k : bool) (src : list Z) (fsrc : list nat) : Prop := mkShown {
  sw_ids : oVertexByUID o = []; sw_shade : oShading o = 1; sw_vis : oVisible o = true; sw_name : mesh_name (oName o);
  sw_verts : map Some (oVerts o) = map (fun v => option_map (fun x => move (flip_z (pvPos x))) (zidx (pVerts p) v)) src;
  sw_faces : Forall2 (fun f fi => (fi < length (pFaces p))%nat /\ map (zidx src) (fVerts f) = map Some (nth fi (pFaces p) []) /\ Some (fMaterial f) = owner (pMats p) 0 fi /\
     map Some (fUVs f) = map (uv_of (pVerts p)) (nth fi (pFaces p) []) /\
     fNormals f = map (fun v => option_map turn (normal_of (pVerts p) v)) (nth fi (pFaces p) [])) (oFaces o) fsrc;
  sw_weights : forall b ws, zidx bw b = Some ws -> forall vid, stored ws (oUID o) vid = exp_w hundred p (IMesh k src fsrc) b vid }.

(** Triangle [f] of an object is face [fi]. *)
Definition Tri (src : list Z) (fi : nat) (f : face T) : Prop :=
  exists a b c va vb vc x y z i, (nth fi (pFaces p) [] = [a; b; c] \/ nth fi (pFaces p) [] = [c; a; b] \/ nth fi (pFaces p) [] = [b; c; a]) /\
    zidx (pVerts p) a = Some va /\ zidx (pVerts p) b = Some vb /\ zidx (pVerts p) c = Some vc /\
    fVerts f = [x; y; z] /\ zidx src x = Some a /\ zidx src y = Some b /\ zidx src z = Some c /\
    fUVs f = [pvUV va; pvUV vb; pvUV vc] /\ fNormals f = [Some (turn (flip_z (pvNormal va))); Some (turn (flip_z (pvNormal vb))); Some (turn (flip_z (pvNormal vc)))] /\
    owner (pMats p) 0 fi = Some i /\ fMaterial f = i.

Lemma face_three fi : (fi < length (pFaces p))%nat -> exists a b c, nth fi (pFaces p) [] = [a; b; c].
Proof.
  intros H. rewrite Forall_forall in three. specialize (three (nth fi (pFaces p) []) (nth_In _ _ H)).
  destruct (nth fi (pFaces p) []) as [|a [|b [|c [|? ?]]]]; try discriminate. eauto.
Qed.
Lemma tris_of (o : object T) k src fsrc tris : Shown o k src fsrc -> triangles_of o tris -> Forall2 (Tri src) fsrc tris.
Proof.
  intros S (fs & gss & C & G & ->). pose proof (sw_faces _ _ _ _ S) as F. clear S. revert fsrc F gss G. induction C as [|f f' l l' (C1 & C2 & C3 & C4) C IH]; intros fsrc F gss G.
  - inversion F; subst. inversion G; subst. constructor.
  - inversion F as [|? fi ? fsrc' (H0 & H1 & H2 & H3 & H4) F']; subst. inversion G as [|? gs ? gss' G1 G2]; subst. cbn [concat].
    destruct (face_three fi H0) as (a & b & c & Ef). rewrite Ef in *. cbn [map] in *.
    destruct (fVerts f) as [|x [|y [|z [|? ?]]]] eqn:Ev; cbn [map] in H1; try discriminate. injection H1 as X Y Z.
    destruct (fUVs f) as [|ua [|ub [|uc [|? ?]]]] eqn:Eu; cbn [map] in H3; try discriminate. injection H3 as Ua Ub Uc.
    unfold uv_of in Ua, Ub, Uc. destruct (zidx (pVerts p) a) as [va|] eqn:Ea; [|discriminate]. destruct (zidx (pVerts p) b) as [vb|] eqn:Eb; [|discriminate]. destruct (zidx (pVerts p) c) as [vc|] eqn:Ec; [|discriminate].
    cbn [option_map] in Ua, Ub, Uc. injection Ua as ->. injection Ub as ->. injection Uc as ->.
    assert (Hn : fNormals f' = [Some (turn (flip_z (pvNormal va))); Some (turn (flip_z (pvNormal vb))); Some (turn (flip_z (pvNormal vc)))]).
    { rewrite C4. unfold complete. rewrite H4, Ev. cbn [length Nat.eqb]. unfold normal_of. rewrite Ea, Eb, Ec. reflexivity. }
    destruct (triangle_turned f' gs) as (gf & t & -> & (_ & T1 & T2 & T3 & T4) & Ht); [rewrite C1; reflexivity|exact G1|].
    rewrite C1 in T1. rewrite C3 in T2. rewrite Hn in T3. cbn [app]. constructor; [|apply IH; assumption].
    unfold turns in Ht. destruct Ht as [ -> | [ -> | -> ] ]; cbn in T1, T2, T3;
      destruct T1 as [[? _]|(q1 & q2 & q3 & [= <-] & [= <-] & [= <-] & W1)]; try discriminate;
      destruct T2 as [[? _]|(u1 & u2 & u3 & [= <-] & [= <-] & [= <-] & W2)]; try discriminate;
      destruct T3 as [[? _]|(n1 & n2 & n3 & [= <-] & [= <-] & [= <-] & W3)]; try discriminate.
    + exists a, b, c, va, vb, vc, x, y, z, (fMaterial f). rewrite Ef. rewrite <- H2. repeat (split; [now auto|]). congruence.
    + exists b, c, a, vb, vc, va, y, z, x, (fMaterial f). rewrite Ef. rewrite <- H2. repeat (split; [now auto|]). congruence.
    + exists c, a, b, vc, va, vb, z, x, y, (fMaterial f). rewrite Ef. rewrite <- H2. repeat (split; [now auto|]). congruence.
Qed.
Lemma normals_unique src fsrc tris x v vx n : Forall2 (Tri src) fsrc tris -> zidx src x = Some v -> zidx (pVerts p) v = Some vx -> given_normal tris x n -> n = turn (flip_z (pvNormal vx)).
Proof.
  intros F Hx Hv (f & i & Hf & E1 & E2). destruct (GltfProps.forall2_in_r _ _ _ _ F Hf) as (fi & _ & a & b & c & va & vb & vc & x0 & y & z & m & _ & Va & Vb & Vc & Ef & Xa & Xb & Xc & _ & En & _).
  rewrite Ef in E1. rewrite En in E2. destruct i as [|[|[|[|i]]]]; cbn in E1, E2; try discriminate; injection E1 as <-; injection E2 as <-; congruence.
Qed.

Variables (bones : list (bone T)) (base : nat).
Hypothesis BW : map bWeights bones = bw.
Hypothesis NB : length bones = pNBones p.
Hypothesis ND : NoDup (map bID bones).

Lemma combine_seq_map {A B} (f : nat -> A -> B) (h : nat -> B) (l : list A) : (forall i x, nth_error l i = Some x -> f i x = h i) ->
  map (fun q => f (fst q) (snd q)) (combine (seq 0 (length l)) l) = map h (seq 0 (length l)).
Proof.
  intros H. assert (G : forall r k, (forall i x, nth_error r i = Some x -> f (k + i)%nat x = h (k + i)%nat) -> map (fun q => f (fst q) (snd q)) (combine (seq k (length r)) r) = map h (seq k (length r))).
  { induction r as [|x r IH]; intros k Hr; [reflexivity|]. cbn [length seq combine map fst snd]. f_equal.
    - specialize (Hr O x eq_refl). rewrite Nat.add_0_r in Hr. exact Hr.
    - apply IH. intros i y Hy. specialize (Hr (S i) y Hy). rewrite Nat.add_succ_r in Hr. exact Hr. }
  apply (G l O). exact H.
Qed.
Lemma skin_stored o k src fsrc x v vx : Shown o k src fsrc -> zidx src x = Some v -> zidx (pVerts p) v = Some vx -> NoDup (pvBones vx) -> 0 <= x < Z.of_nat (length (oVerts o)) ->
  skin_of hundred centi (pNBones p) base vx = flat_map (by_node centi o x) (combine (own_nodes o base 0 bones) (lists_of o bones)).
Proof.
  intros S Hx Hv Hn Hb. rewrite (by_node_stored centi o base x (sw_ids _ _ _ _ S) Hb bones O). unfold skin_of. rewrite <- NB. rewrite !flat_map_concat_map. f_equal. symmetry.
  apply (combine_seq_map (fun i b => map (fun w => (Some (base + i)%nat, nmul w centi)) (stored (bWeights b) (oUID o) (x + 1)))
           (fun b => map (fun w => (Some (base + b)%nat, nmul w centi)) (percent hundred (weights_for vx (Z.of_nat b))))).
  intros i b Hi. f_equal. rewrite (sw_weights _ _ _ _ S (Z.of_nat i) (bWeights b)).
  - cbn [exp_w]. replace (x + 1 - 1) with x by lia. rewrite Hx, Hv. apply expected_more. right. apply weights_once. exact Hn.
  - apply zidx_Some. split; [lia|]. rewrite Nat2Z.id, <- BW. apply map_nth_error. exact Hi.
Qed.

(** One corner. *)
Lemma corner_drawn o k src fsrc tris ws morphs (q : prim T) (sk : option (gskin T)) f i id x v vx :
  Shown o k src fsrc -> Forall2 (Tri src) fsrc tris ->
  (forall y s, zidx ws y = Some s -> slots_for (influences centi o bones y) s) ->
  (gpSkin q = None <-> lists_of o bones = []) -> (gpNormals q = None <-> oShading o <= 0 \/ unlit = true) ->
  (lists_of o bones = [] \/ exists s, sk = Some s /\ exports_skin base bones o s) ->
  exports_corner scale eps o ws morphs (given_normal tris) q f i id ->
  nth_error (fVerts f) i = Some x -> nth_error (fUVs f) i = Some (pvUV vx) -> zidx src x = Some v -> zidx (pVerts p) v = Some vx ->
  draws_corner scale eps hundred centi unlit move turn (pNBones p) base vx (corner_at sk q id).
Proof.
  intros S F SL SK SN HS (x' & E1 & (pos & qq & P1 & P2 & P3 & _ & P5) & U & Hn) Hx Hu Hs Hv. rewrite Hx in E1. injection E1 as <-.
  unfold draws_corner, corner_at. cbn [gcPos gcUV gcNormal gcSkin]. rewrite P1. cbn [at_opt]. rewrite P3. split; [|split; [|split]].
  - do 2 f_equal. pose proof (sw_verts _ _ _ _ S) as V. apply zidx_Some in Hs as (X0 & Hs). apply zidx_Some in P2 as (_ & P2).
    pose proof (map_nth_error (fun v => option_map (fun x => move (flip_z (pvPos x))) (zidx (pVerts p) v)) _ _ Hs) as Q. rewrite <- V in Q. rewrite nth_error_map, P2 in Q. cbn in Q. rewrite Hv in Q. cbn in Q. congruence.
  - destruct U as (uvs & u & t & G1 & G2 & G3 & G4); [intros Z; rewrite Z in Hu; destruct i; discriminate|]. rewrite G1. cbn [at_opt]. exists t. split; [exact G3|]. rewrite Hu in G2. injection G2 as <-. exact G4.
  - rewrite (sw_shade _ _ _ _ S) in SN. destruct unlit.
    + assert (gpNormals q = None) as -> by (apply SN; auto). reflexivity.
    + destruct (gpNormals q) as [ns|]; [|destruct (proj1 SN eq_refl) as [C|C]; [lia|discriminate]].
      destruct (Hn ns eq_refl) as (n & N1 & N2). cbn [at_opt]. rewrite N1. f_equal. eapply normals_unique; eassumption.
  - intros Hd Hl. assert (Hb : 0 <= x < Z.of_nat (length (oVerts o))) by (eapply zidx_bound; exact P2).
    rewrite (skin_stored o k src fsrc x v vx S Hs Hv Hd Hb) in *. destruct HS as [HS|(s & -> & HS)].
    + rewrite HS in *. assert (gpSkin q = None) as -> by (apply SK; reflexivity). cbn [at_opt]. exists []. split; [|constructor].
      destruct (own_nodes o base 0 bones); reflexivity.
    + unfold exports_skin in HS. apply owners_nodes in HS; [|exact ND]. rewrite HS.
      destruct (gpSkin q) as [skl|].
      * destruct (P5 skl eq_refl) as (s0 & W1 & W2). cbn [at_opt]. rewrite W2. destruct (SL x s0 W1) as (_ & _ & Fit).
        assert (LJ : length (own_nodes o base 0 bones) = length (lists_of o bones)).
        { unfold own_nodes, lists_of. generalize 0%nat. clear. induction bones as [|b r IH]; intros n; [reflexivity|]. cbn [length seq combine flat_map fst snd]. rewrite !app_length, !map_length, IH. reflexivity. }
        pose proof (influences_nodes centi o bones x _ LJ) as IN. rewrite <- IN in *. rewrite map_length in Hl.
        rewrite (Fit Hl), map_app. eexists. split; [reflexivity|]. rewrite Forall_map. apply Forall_forall. intros e He. apply repeat_spec in He. subst e. reflexivity.
      * rewrite (proj1 SK eq_refl) in *. cbn [at_opt]. exists []. split; [|constructor]. destruct (own_nodes o base 0 bones); reflexivity.
Qed.

(** The material a face gets. *)
Definition fkey (mm : Z -> option Z) (fi : nat) : option Z := match owner (pMats p) 0 fi with Some i => mm i | None => None end.
Notation draws := (draws_face scale eps hundred centi unlit move turn p base).

Lemma prim_drawn o k src fsrc tris ws morphs mm (q : prim T) sk :
  Shown o k src fsrc -> Forall2 (Tri src) fsrc tris ->
  (forall y s, zidx ws y = Some s -> slots_for (influences centi o bones y) s) ->
  exports_faces scale eps o ws morphs (given_normal tris) mm tris q ->
  (gpSkin q = None <-> lists_of o bones = []) -> (gpNormals q = None <-> oShading o <= 0 \/ unlit = true) ->
  (lists_of o bones = [] \/ exists s, sk = Some s /\ exports_skin base bones o s) ->
  Forall2 (draws mm) (filter (fun fi => okey (fkey mm fi) (gpMaterial q)) fsrc) (prim_tris sk q).
Proof.
  intros S F SL (kk & trs & Hk & Hi & G) SK SN HS. unfold prim_tris. rewrite Hi, Hk.
  assert (F2 : Forall2 (fun fi f => Tri src fi f /\ mm (fMaterial f) = Some kk) (filter (fun fi => okey (fkey mm fi) (Some kk)) fsrc)
                (filter (fun f => match mm (fMaterial f) with Some k' => k' =? kk | None => false end) tris)).
  { clear - F. induction F as [|fi f fsrc tris R F IH]; [constructor|]. cbn [filter].
    assert (E : fkey mm fi = mm (fMaterial f)). { destruct R as (? & ? & ? & ? & ? & ? & ? & ? & ? & i & R). unfold fkey. destruct R as (_ & _ & _ & _ & _ & _ & _ & _ & _ & _ & -> & ->). reflexivity. }
    rewrite E. destruct (mm (fMaterial f)) as [k'|] eqn:Em; cbn [okey]; [|exact IH]. destruct (Z.eqb_spec k' kk) as [->|]; [|exact IH]. constructor; auto. }
  assert (G3 : Forall (fun t => exists a b c, t = [a; b; c]) trs).
  { apply Forall_forall. intros t Ht. destruct (GltfProps.forall2_in_r _ _ _ _ G Ht) as (f & _ & a & b & c & -> & _). eauto. }
  pose proof (triples_concat trs G3) as G4.
  pose proof (forall2_trans _ _ (fun fi t => exists f, (Tri src fi f /\ mm (fMaterial f) = Some kk) /\ exports_face scale eps o ws morphs (given_normal tris) q f t) _ _ _ (fun a b c X Y => ex_intro _ b (conj X Y)) F2 G) as H1.
  clear F2 G G3.
  assert (H2 : Forall2 (fun fi u => draws mm fi (let '(a, b, c) := u in (Some kk, (corner_at sk q a, corner_at sk q b, corner_at sk q c)))) (filter (fun fi => okey (fkey mm fi) (Some kk)) fsrc) (triples (concat trs))).
  { eapply forall2_trans; [|exact H1|exact G4]. cbn. intros fi t [[a1 b1] c1] (f & (R & Em) & a & b & c & Et & A & B & C) ->. injection Et as -> -> ->.
    destruct R as (ia & ib & ic & va & vb & vc & x & y & z & m & Rf & Va & Vb & Vc & Ef & Xa & Xb & Xc & Eu & En & Eo & Efm).
    assert (Da : draws_corner scale eps hundred centi unlit move turn (pNBones p) base va (corner_at sk q a)).
    { eapply (corner_drawn o k src fsrc tris ws morphs q sk f 0 a x ia va); try eassumption; [rewrite Ef; reflexivity|rewrite Eu; reflexivity]. }
    assert (Db : draws_corner scale eps hundred centi unlit move turn (pNBones p) base vb (corner_at sk q b)).
    { eapply (corner_drawn o k src fsrc tris ws morphs q sk f 1 b y ib vb); try eassumption; [rewrite Ef; reflexivity|rewrite Eu; reflexivity]. }
    assert (Dc : draws_corner scale eps hundred centi unlit move turn (pNBones p) base vc (corner_at sk q c)).
    { eapply (corner_drawn o k src fsrc tris ws morphs q sk f 2 c z ic vc); try eassumption; [rewrite Ef; reflexivity|rewrite Eu; reflexivity]. }
    rewrite Efm in Em. pose proof (owner_valid _ _ _ _ Eo ltac:(lia)) as Ov. assert (exists pm, nth_error (pMats p) (Z.to_nat m) = Some pm) as (pm & Epm).
    { destruct (nth_error (pMats p) (Z.to_nat m)) as [pm|] eqn:Q; [eauto|]. apply nth_error_None in Q. lia. }
    destruct Rf as [Rf|[Rf|Rf]].
    - exists m, pm, ia, ib, ic, va, vb, vc. cbn [fst snd]. repeat (split; [first [assumption|congruence|symmetry; assumption|discriminate]|]). left. auto.
    - exists m, pm, ic, ia, ib, vc, va, vb. cbn [fst snd]. repeat (split; [first [assumption|congruence|symmetry; assumption|discriminate]|]). right. left. auto.
    - exists m, pm, ib, ic, ia, vb, vc, va. cbn [fst snd]. repeat (split; [first [assumption|congruence|symmetry; assumption|discriminate]|]). right. right. auto. }
  clear - H2. induction H2 as [|fi u l l' R H IH]; [constructor|]. cbn [map]. constructor; [destruct u as [[a b] c]; exact R|exact IH].
Qed.

(** One mesh: its primitives together. *)
Lemma mesh_drawn objs sets mm o k src fsrc mesh sk : Shown o k src fsrc -> exports_mesh scale eps centi unlit objs sets bones mm o mesh ->
  (lists_of o bones = [] \/ exists s, sk = Some s /\ exports_skin base bones o s) ->
  exists l, Permutation l (filter (fun fi => odef (fkey mm fi)) fsrc) /\ Forall2 (draws mm) l (flat_map (prim_tris sk) (gmPrims mesh)).
Proof.
  intros S (tris & ws & morphs & TR & _ & _ & SL & _ & _ & ND' & K & FP & _) HS. pose proof (tris_of _ _ _ _ _ S TR) as F.
  exists (flat_map (fun km => filter (fun fi => okey (fkey mm fi) km) fsrc) (map gpMaterial (gmPrims mesh))). split.
  - apply group_perm; [exact ND'|]. intros fi Hfi Hk. destruct (fkey mm fi) as [kk|] eqn:Ek; [|congruence]. apply K.
    destruct (In_nth_error _ _ Hfi) as (j & Hj). destruct (forall2_nth _ _ _ F _ _ Hj) as (f & Hf & R). exists f. split; [eapply nth_error_In; exact Hf|].
    destruct R as (? & ? & ? & ? & ? & ? & ? & ? & ? & i & _ & _ & _ & _ & _ & _ & _ & _ & _ & _ & Eo & ->). unfold fkey in Ek. rewrite Eo in Ek. exact Ek.
  - clear K ND'. induction (gmPrims mesh) as [|q r IH]; [constructor|]. inversion FP as [|? ? (P1 & P2 & P3) FP']; subst. cbn [map flat_map]. apply Forall2_app; [|apply IH; exact FP'].
    eapply prim_drawn; eassumption.
Qed.
End Object.

(** *** The document *)

Section Document.
Context {T : Type} {N : Num T}.
Variables (hundred facet : T) (shuffle : vmap -> vmap).
Hypothesis shuffle_perm : forall m, Permutation (shuffle m) m.
Variables (scale centi eps : T) (ign unlit : bool) (opaque99 rough : T) (tex_alpha : material T -> bool) (move turn : vec3 T -> vec3 T).
Variables (p : pmodel T) (os : list (object T)) (bw : bone_weights (T := T)) (sets : list target_list).
Hypothesis EC : convert hundred facet shuffle p = Some (os, bw, sets).
Hypothesis CV : covers p.
Hypothesis three : Forall (fun f => length f = 3%nat) (pFaces p).
Hypothesis names : forall m, In m (pMorphs p) -> ~ mesh_name (phName m).
Variables (d : document T) (bones : list (bone T)) (g : gdoc T).
Hypothesis OB : Forall2 (moved_object move turn) os (dObjects d).
Hypothesis MA : map (@mtName T) (dMaterials d) = map pmName (pMats p).
Hypothesis BW : map bWeights bones = bw.
Hypothesis ND : NoDup (map bID bones).
Hypothesis FB : Z.of_nat (length bones) <= 65536.
Hypothesis EG : to_gltf scale centi eps ign unlit opaque99 rough tex_alpha d bones sets = Some g.

Definition ShownI (o : object T) (i : info) : Prop :=
  match i with IMesh k src fsrc => Shown hundred move turn p bw o k src fsrc | ITarget => oVisible o = false end.

Lemma forall2_map_eq {A B C} (f : A -> C) (h : B -> C) l l' : Forall2 (fun a b => f a = h b) l l' <-> map f l = map h l'.
Proof.
  split; [induction 1; cbn; congruence|]. revert l'. induction l as [|a l IH]; intros [|b l'] E; try discriminate; [constructor|]. injection E as E1 E2. constructor; auto.
Qed.
Lemma moved_shown o o' i : Held hundred p bw o i -> moved_object move turn o o' -> ShownI o' i /\ well_indexed o' /\ oUID o' <> 0 /\ Held hundred p bw o i.
Proof.
  intros H (V & U & Na & Vi & De & Sh & By & Fa). pose proof H as (M & Hu & Hi & Hw). destruct M as (M1 & M2 & M3). split; [|split; [|split; [congruence|exact H]]].
  - destruct i as [k src fsrc|]; cbn [ShownI]; [|rewrite Vi; exact Hi]. destruct Hi as (Hv & (Nd & P1 & P2) & R).
    destruct M3 as [(_ & _ & S1 & S2)|(_ & C)]; [|congruence]. constructor; try congruence.
    + rewrite V, map_map. transitivity (map (option_map move) (map Some (oVerts o))); [rewrite map_map; reflexivity|]. rewrite P1, map_map. apply map_ext. intros v. destruct (zidx (pVerts p) v); reflexivity.
    + rewrite Fa. apply forall2_map_eq in R. apply (proj2 (forall2_map_l _ _ _ _)).
      assert (B : Forall2 (fun (f : face T) fi => (fi < length (pFaces p))%nat) (oFaces o) fsrc).
      { clear - P2 three CV. induction P2 as [|f fi l l' (A & B) F IH]; constructor; [|exact IH]. 
        destruct (Nat.lt_ge_cases fi (length (pFaces p))) as [L|L]; [exact L|]. exfalso. destruct CV as (C1 & C2). symmetry in B. revert B. rewrite <- C2 in L. clear - L. generalize 0. revert fi L.
        induction (pMats p) as [|m r IH]; intros fi L i E; [discriminate|]. cbn [owner total] in *. cbv zeta in E. destruct (Nat.ltb_spec fi (Z.to_nat (pmCount m / 3))); [lia|]. eapply IH; [|exact E]. lia. }
      clear - P2 R B. revert P2 R. induction B as [|f fi l l' B0 B IH]; intros P2 R; [constructor|]. inversion P2 as [|? ? ? ? (A1 & A2) P2']; subst. inversion R as [|? ? ? ? Rr R']; subst.
      constructor; [|apply IH; assumption]. cbn [fVerts fMaterial fUVs fNormals]. split; [exact B0|]. split; [exact A1|]. split; [exact A2|].
      unfold resolve, source in Rr. injection Rr as _ _ E2 E3. split; [exact E2|]. rewrite E3, map_map. reflexivity.
    + intros b ws Hb vid. rewrite U. apply Hw. exact Hb.
  - unfold well_indexed in *. rewrite V, Fa, map_length, Forall_map. cbn [fVerts fUVs]. exact M2.
Qed.

Lemma zidx_list {A} (l : list A) i : zidx l (Z.of_nat i) = nth_error l i.
Proof. unfold zidx. destruct (Z.ltb_spec (Z.of_nat i) 0); [lia|]. rewrite Nat2Z.id. reflexivity. Qed.
Lemma few_filter (o : object T) : Forall one_list bw -> (length (lists_of o bones) <= length bones)%nat.
Proof.
  intros H. rewrite <- BW in H. rewrite Forall_map in H. clear - H. unfold lists_of. induction bones as [|b r IH]; [cbn; lia|]. inversion H as [|? ? H1 H2]; subst. cbn [flat_map length]. rewrite app_length, map_length.
  specialize (IH H2). assert (length (filter (fun bw => (fst bw =? oUID o)%Z) (bWeights b)) <= 1)%nat; [|lia].
  clear - H1. unfold one_list in H1. induction (bWeights b) as [|[u l] ws IH]; [cbn; lia|]. inversion H1 as [|? ? A B]; subst. cbn [filter fst]. destruct (Z.eqb_spec u (oUID o)) as [->|]; [|apply IH; exact B].
  rewrite filter_nil; [cbn; lia|]. intros [u' l'] Hin. apply Z.eqb_neq. cbn. intros ->. apply A. apply in_map_iff. exists (oUID o, l'). auto.
Qed.
Lemma fix_ids_id os0 : Forall (fun o : object T => oUID o <> 0) os0 -> forall i, fix_ids i os0 = os0.
Proof. induction 1 as [|o l H F IH]; intros i; [reflexivity|]. cbn [fix_ids]. rewrite (proj2 (Z.eqb_neq _ _) H), IH. reflexivity. Qed.
Notation eos := (exported_objects ign sets (fix_ids 0 (dObjects d))).

Lemma exported_infos objs is : Forall2 ShownI objs is -> exists is', Forall2 ShownI (exported_objects ign sets objs) is' /\ flat_map info_faces is' = flat_map info_faces is.
Proof.
  destruct (convert_made hundred facet shuffle _ _ _ _ EC) as (_ & SO). induction 1 as [|o i objs is R F (is' & IH1 & IH2)]; [exists []; split; [constructor|reflexivity]|].
  unfold exported_objects in *. cbn [filter]. match goal with |- context [if ?c then o :: _ else _] => destruct c eqn:Ec end.
  - exists (i :: is'). split; [constructor; assumption|]. cbn [flat_map]. rewrite IH2. reflexivity.
  - exists is'. split; [exact IH1|]. cbn [flat_map]. rewrite IH2. replace (info_faces i) with (@nil nat); [reflexivity|]. destruct i as [k src fsrc|]; [|reflexivity]. cbn [info_faces ShownI] in *.
    destruct (existsb _ sets) eqn:Ee.
    + exfalso. apply existsb_exists in Ee as (s & Hs & Ee). apply existsb_exists in Ee as (t & Ht & Et). apply String.eqb_eq in Et. subst t.
      unfold sets_ok in SO. rewrite Forall_forall in SO. specialize (SO s Hs). rewrite Forall_forall in SO. specialize (SO _ Ht). apply in_map_iff in SO as (m & Hm & Hin). apply (names m Hin). rewrite Hm. exact (sw_name _ _ _ _ _ _ _ _ _ R).
    + destruct ign; [|discriminate]. rewrite (sw_vis _ _ _ _ _ _ _ _ _ R) in Ec. cbn [andb] in Ec. pose proof (sw_faces _ _ _ _ _ _ _ _ _ R) as Fs. destruct (oFaces o); [inversion Fs; reflexivity|discriminate].
Qed.

Lemma nth_forall2 {A B} (P : A -> B -> Prop) es : forall ns, (length es <= length ns)%nat -> (forall i o, nth_error es i = Some o -> exists n, nth_error ns i = Some n /\ P o n) -> Forall2 P es (firstn (length es) ns).
Proof.
  induction es as [|o es IH]; intros ns Hn X; [constructor|]. destruct ns as [|n ns]; [cbn in Hn; lia|]. cbn [length firstn]. constructor.
  - destruct (X 0%nat o eq_refl) as (n' & [= <-] & H). exact H.
  - apply IH; [cbn in Hn; lia|]. intros i o' Hi. exact (X (S i) o' Hi).
Qed.
Lemma drawn_objects : drawn g = flat_map (node_tris g) (firstn (length eos) (gdNodes g)).
Proof.
  destruct (conv_inv _ _ _ _ _ _ _ _ _ _ _ _ EG) as (ts & g0 & ns & ms & ss & gr & H1 & H2 & H3 & H4 & H5 & H6 & H7 & H8).
  apply conv_objects_spec in H2 as (_ & _ & F). apply forall2_len in F. unfold drawn. rewrite <- (firstn_skipn (length eos) (gdNodes g)) at 1. rewrite flat_map_app.
  rewrite (flat_map_nil _ (skipn _ _)); [apply app_nil_r|]. intros n Hn. unfold node_tris.
  assert (gnMesh n = None) as ->; [|reflexivity].
  apply In_nth_error in Hn as (i & Hi). rewrite H4 in Hi. rewrite nth_error_skipn in Hi || idtac.
  assert (Hk : forall A (l : list A) k j, nth_error (skipn k l) j = nth_error l (k + j)).
  { clear. intros A l k. revert l. induction k as [|k IH]; intros [|x l] j; cbn; try reflexivity; [destruct j; reflexivity|apply IH]. }
  rewrite Hk in Hi. rewrite nth_error_map in Hi. destruct (nth_error (numbered (ns ++ bone_nodes bones ts)) (length eos + i)) as [[j n0]|] eqn:En; [|discriminate]. cbn in Hi. injection Hi as <-. cbn [gnMesh with_children].
  unfold numbered in En. rewrite Mmd2MqoProofs.nth_error_combine in En. destruct (nth_error (seq _ _) _); [|discriminate]. destruct (nth_error (ns ++ bone_nodes bones ts) (length eos + i)) as [n1|] eqn:E1; [|discriminate].
  injection En as _ ->. cbn. rewrite nth_error_app2 in E1 by (unfold GltfTop.os, GltfTop.objs in F; lia). apply nth_error_In in E1. unfold bone_nodes in E1. apply in_map_iff in E1 as (q & <- & _). reflexivity.
Qed.

Theorem all_drawn : exists mm l, renumbers eos (dMaterials d) (gdMats g) mm /\ NoDup l /\ (forall fi, In fi l <-> wanted p fi) /\
  Forall2 (draws_face scale eps hundred centi unlit move turn p (length eos) mm) l (drawn g).
Proof.
  destruct (convert_held hundred facet shuffle shuffle_perm p os bw sets EC CV) as (LB & is & HH & PF).
  assert (HA : Forall2 (fun o' i => ShownI o' i /\ well_indexed o' /\ oUID o' <> 0) (dObjects d) is).
  { clear - HH OB three CV. revert is HH. induction OB as [|o o' l l' M OB' IH]; intros is HH; inversion HH; subst; constructor; [|apply IH; assumption].
    destruct (moved_shown o o' _ ltac:(eassumption) M) as (A & B & C & _). auto. }
  assert (HW : Forall well_indexed (dObjects d)) by (clear - HA; induction HA as [|? ? ? ? (_ & A & _) _ IH]; constructor; assumption).
  assert (HU : fix_ids 0 (dObjects d) = dObjects d) by (apply fix_ids_id; clear - HA; induction HA as [|? ? ? ? (_ & _ & A) _ IH]; constructor; assumption).
  assert (HS : Forall2 ShownI (fix_ids 0 (dObjects d)) is) by (rewrite HU; eapply forall2_weak; [|exact HA]; cbn; tauto).
  destruct (exported_infos _ _ HS) as (is' & HE & HF).
  pose proof (convert_one hundred facet shuffle _ _ _ _ EC) as ONE.
  assert (FEW : Forall (fun o => Z.of_nat (length (lists_of o bones)) <= 65536) eos).
  { apply Forall_forall. intros o _. pose proof (few_filter o ONE). lia. }
  destruct (exports_all scale centi eps ign unlit opaque99 rough tex_alpha d bones sets g EG ND HW FEW) as (mm & RN & X).
  change (GltfTop.os ign d sets) with eos in *.
  assert (NBs : length bones = pNBones p) by (rewrite <- LB, <- BW, map_length; reflexivity).
  exists mm.
  assert (G : exists l, Permutation l (filter (fun fi => odef (fkey p mm fi)) (flat_map info_faces is')) /\
     Forall2 (draws_face scale eps hundred centi unlit move turn p (length eos) mm) l (flat_map (node_tris g) (firstn (length eos) (gdNodes g)))).
  { assert (Hn : (length eos <= length (gdNodes g))%nat).
    { destruct (Nat.le_gt_cases (length eos) (length (gdNodes g))) as [|L]; [assumption|]. exfalso.
      destruct (nth_error eos (length (gdNodes g))) as [o|] eqn:Eo; [|apply nth_error_None in Eo; lia]. destruct (X _ _ Eo) as (n & Hn & _). assert (nth_error (gdNodes g) (length (gdNodes g)) = None) by (apply nth_error_None; lia). congruence. }
    assert (Y : Forall2 (fun o n => exports_object scale eps centi unlit (fix_ids 0 (dObjects d)) sets bones (length eos) mm g o n) eos (firstn (length eos) (gdNodes g))).
    { apply nth_forall2; [exact Hn|exact X]. }
    remember (length eos) as B eqn:EB. clear X Hn RN FEW HF. revert is' HE Y. generalize (firstn B (gdNodes g)) as ns. clear EB. revert B. generalize eos as es.
    induction es as [|o es IH]; intros B ns is' HE Y; inversion Y as [|? n ? ns' Y1 Y2]; subst; inversion HE as [|? i ? is2 R HE']; subst.
    { exists []. split; constructor. }
    destruct (IH B ns' is2 HE' Y2) as (l2 & P2 & F2). cbn [flat_map]. rewrite filter_app.
    assert (exists l1, Permutation l1 (filter (fun fi => odef (fkey p mm fi)) (info_faces i)) /\ Forall2 (draws_face scale eps hundred centi unlit move turn p B mm) l1 (node_tris g n)) as (l1 & P1 & F1).
    { destruct Y1 as (_ & _ & V0 & V1). destruct i as [k src fsrc|]; cbn [ShownI info_faces] in *.
      - destruct (V1 (sw_vis _ _ _ _ _ _ _ _ _ R)) as ((mesh & M & Hm) & Hs).
        destruct (mesh_drawn scale eps hundred centi unlit move turn p bw three bones B BW NBs ND _ _ mm o k src fsrc mesh (ref (gdSkins g) (gnSkin n)) R M) as (l & P & F).
        { destruct Hs as [(Hs & _)|(_ & si & s & S1 & S2 & S3)]; [left; exact Hs|right]. exists s. rewrite S1. cbn [ref]. auto. }
        exists l. split; [exact P|]. unfold node_tris. destruct Hm as [(Hm & ->)|(_ & mi & -> & Hm)].
        + cbn [ref]. rewrite Hm in F. exact F.
        + cbn [ref]. rewrite Hm. exact F.
      - destruct (V0 R) as (E0 & _). exists []. split; [constructor|]. unfold node_tris. rewrite E0. constructor. }
    exists (l1 ++ l2). split; [apply Permutation_app; assumption|apply Forall2_app; assumption]. }
  destruct G as (l & P & F). rewrite <- drawn_objects in F. exists l. split; [exact RN|]. rewrite HF in P.
  assert (P' : Permutation l (filter (fun fi => odef (fkey p mm fi)) (seq 0 (length (pFaces p))))) by (eapply Permutation_trans; [exact P|apply filter_perm; exact PF]).
  split; [eapply Permutation_NoDup; [apply Permutation_sym; exact P'|]; apply NoDup_filter, seq_NoDup|]. split; [|exact F].
  destruct RN as (R1 & R2 & _). intros fi.
  assert (Q : In fi l <-> (fi < length (pFaces p))%nat /\ odef (fkey p mm fi) = true).
  { split; [intros H; apply (Permutation_in _ P') in H|intros H; apply (Permutation_in _ (Permutation_sym P'))]; [apply filter_In in H as (H & H'); apply in_seq in H; split; [lia|exact H']|].
    apply filter_In. split; [apply in_seq; lia|apply H]. }
  rewrite Q. unfold wanted, fkey.
  assert (MN : forall i, 0 <= i -> forall mt, zidx (dMaterials d) i = Some mt -> exists m, nth_error (pMats p) (Z.to_nat i) = Some m /\ pmName m = mtName mt).
  { intros i Hi mt Hm. apply zidx_Some in Hm as (_ & Hm). apply (map_nth_error (@mtName T)) in Hm. rewrite MA, nth_error_map in Hm. destruct (nth_error (pMats p) (Z.to_nat i)) as [m|]; [|discriminate]. cbn in Hm. injection Hm as Hm. eauto. }
  split; intros (H1 & H2); (split; [exact H1|]).
  - destruct (owner (pMats p) 0 fi) as [i|] eqn:Eo; [|discriminate]. destruct (mm i) as [k|] eqn:Em; [|discriminate].
    destruct (proj1 (R2 i) (ex_intro _ k Em)) as (mt & A1 & _ & A3). pose proof (owner_valid _ _ _ _ Eo ltac:(lia)). destruct (MN i ltac:(lia) mt A1) as (m & M1 & M2). exists i, m. rewrite M2. auto.
  - destruct H2 as (i & m & Eo & Em & Hl). rewrite Eo. destruct (proj2 (R2 i)) as (k & ->); [|reflexivity].
    pose proof (owner_valid _ _ _ _ Eo ltac:(lia)) as Ov. assert (exists mt, nth_error (dMaterials d) (Z.to_nat i) = Some mt) as (mt & Emt).
    { destruct (nth_error (dMaterials d) (Z.to_nat i)) as [mt|] eqn:Q'; [eauto|]. apply nth_error_None in Q'. apply (f_equal (@length _)) in MA. rewrite !map_length in MA. apply nth_error_Some in Em || idtac.
      assert (Z.to_nat i < length (pMats p))%nat by lia. lia. }
    exists mt. assert (Zm : zidx (dMaterials d) i = Some mt) by (apply zidx_Some; split; [lia|exact Emt]). split; [exact Zm|].
    destruct (MN i ltac:(lia) mt Zm) as (m' & M1 & M2). rewrite Em in M1. injection M1 as <-. rewrite <- M2. split; [|exact Hl].
    assert (Hin : In fi (flat_map info_faces is')) by (rewrite HF; apply (Permutation_in _ (Permutation_sym PF)), in_seq; lia).
    clear - HE Hin Eo. induction HE as [|o inf es is2 R HE IH]; [destruct Hin|]. cbn [flat_map] in Hin. apply in_app_iff in Hin as [Hin|Hin].
    + destruct inf as [k src fsrc|]; [|destruct Hin]. cbn [info_faces ShownI] in *. pose proof (sw_faces _ _ _ _ _ _ _ _ _ R) as Fs. destruct (In_nth_error _ _ Hin) as (j & Hj).
      assert (exists f, In f (oFaces o) /\ Some (fMaterial f) = owner (pMats p) 0 fi) as (f & F1 & F2).
      { clear - Fs Hin. induction Fs as [|f x l l' (_ & _ & A & _) Fs IH]; [destruct Hin|]. destruct Hin as [ -> |Hin]; [exists f; split; [left; reflexivity|exact A]|]. destruct (IH Hin) as (f' & B & C). exists f'. split; [right; exact B|exact C]. }
      exists o, f. split; [left; reflexivity|]. split; [exact (sw_vis _ _ _ _ _ _ _ _ _ R)|]. split; [exact F1|]. rewrite Eo in F2. congruence.
    + destruct (IH Hin) as (o' & f & A & B). exists o', f. split; [right; exact A|exact B].
Qed.
End Document.
