(** From FBX to glTF: the triangles of the glTF document are the pieces of the polygons of the FBX document. *)
From Coq Require Import String List ZArith Bool Lia Permutation PeanoNat Reals.
From Verif.Model Require Import Num NumR Vec Matrix Mqo MqoDoc Mmd2Mqo Gltf Mqo2Gltf FbxDoc Fbx2Mqo.
From Verif Require Import Spec.Surface Spec.MqoSpec Spec.NormalsSpec Spec.Mqo2MmdSpec Spec.FbxDocSpec Spec.FbxSceneSpec Spec.FbxMeshSpec Spec.GltfSpec Spec.DrawnSpec Spec.SceneDrawnSpec.
From Verif Require Import Proofs.MqoObjProofs Proofs.FbxDocProofs Proofs.FbxWalk Proofs.FbxTree Proofs.FbxObjects Proofs.FbxFaces Proofs.FbxPlace Proofs.FbxShapes Proofs.GltfTotal Proofs.DrawnLemmas Proofs.DrawnProofs Proofs.DrawnDoc.
Import ListNotations.
Local Open Scope Z_scope.
Local Open Scope list_scope.

(** *** Turning a dissection over *)
Section Turn.
Variable n : nat.
Definition back (a : nat) : nat := (n - 1 - a)%nat.
Definition turn_tri (t : nat * nat * nat) : nat * nat * nat := let '(a, b, c) := t in (back c, back b, back a).
Definition turn_edge (e : nat * nat) : nat * nat := (back (snd e), back (fst e)).
Lemma turn_edges ts : Permutation (flat_map tri_edges (map turn_tri ts)) (map turn_edge (flat_map tri_edges ts)).
Proof.
  induction ts as [|[[a b] c] ts IH]; [constructor|]. cbn [map flat_map]. rewrite map_app. apply Permutation_app; [|exact IH]. unfold turn_edge. cbn. 
  eapply Permutation_trans; [apply perm_swap|]. apply Permutation_refl.
Qed.
Lemma turn_both ds : map turn_edge (flat_map both_ways ds) = flat_map both_ways (map turn_edge ds).
Proof. induction ds as [|[a b] ds IH]; [reflexivity|]. cbn [flat_map map]. rewrite map_app, IH. reflexivity. Qed.
Lemma seq_path f : forall m k, path_edges f (seq k (S m)) = map (fun i => (i, S i)) (seq k m) ++ [(k + m, f)]%nat.
Proof.
  induction m as [|m IH]; intros k; [cbn; now rewrite Nat.add_0_r|]. change (seq k (S (S m))) with (k :: seq (S k) (S m)). change (path_edges f (k :: seq (S k) (S m))) with ((k, S k) :: path_edges f (seq (S k) (S m))).
  rewrite IH, Nat.add_succ_comm. reflexivity.
Qed.
Lemma seq_cycle m : cycle_edges (seq 0 (S m)) = map (fun i => (i, S i)) (seq 0 m) ++ [(m, 0)]%nat.
Proof. change (cycle_edges (seq 0 (S m))) with (path_edges 0%nat (seq 0 (S m))). apply seq_path. Qed.
Lemma turn_cycle : Permutation (map turn_edge (cycle_edges (seq 0 n))) (cycle_edges (seq 0 n)).
Proof.
  assert (H : forall m, n = S m -> Permutation (map turn_edge (cycle_edges (seq 0 n))) (cycle_edges (seq 0 n))).
  { intros m E. rewrite E at 1 2. rewrite seq_cycle, map_app. apply Permutation_app; [|unfold turn_edge, back; cbn; rewrite E; replace (S m - 1 - 0)%nat with m by lia; replace (S m - 1 - m)%nat with 0%nat by lia; apply Permutation_refl].
    apply NoDup_Permutation.
    - rewrite map_map. apply NoDup_nth_error. intros i j Hi Hj. rewrite map_length, seq_length in Hi. rewrite !nth_error_map in Hj.
      assert (Q : forall i, (i < m)%nat -> nth_error (seq 0 m) i = Some i) by (intros; rewrite nth_error_nth' with (d := 0%nat) by (rewrite seq_length; lia); now rewrite seq_nth by lia).
      rewrite (Q i) in Hj by exact Hi. destruct (nth_error (seq 0 m) j) as [j'|] eqn:Ej; [|discriminate]. assert (j < m)%nat by (rewrite <- (seq_length m 0); apply nth_error_Some; congruence). rewrite Q in Ej by assumption. injection Ej as <-.
      cbn in Hj. unfold turn_edge, back in Hj. cbn in Hj. injection Hj as A B. lia.
    - apply FinFun.Injective_map_NoDup; [intros i j [= A]; exact A|apply seq_NoDup].
    - intros [x y]. rewrite map_map, !in_map_iff. unfold turn_edge, back. cbn [fst snd]. split.
      + intros (i & A & B). apply in_seq in B. injection A as <- <-. exists (n - 1 - S i)%nat. rewrite in_seq. split; [f_equal; lia|lia].
      + intros (i & A & B). apply in_seq in B. injection A as <- <-. exists (n - 1 - S i)%nat. rewrite in_seq. split; [f_equal; lia|lia]. }
  destruct n as [|m] eqn:E; [constructor|]. exact (H m eq_refl).
Qed.
Lemma turn_dissects ts : dissects (seq 0 n) ts -> dissects (seq 0 n) (map turn_tri ts).
Proof.
  intros (ds & P). exists (map turn_edge ds). eapply Permutation_trans; [apply turn_edges|]. eapply Permutation_trans; [apply Permutation_map; exact P|]. rewrite map_app, turn_both. apply Permutation_app_tail, turn_cycle.
Qed.
End Turn.
Lemma dissects_perm poly ts ts' : Permutation ts ts' -> dissects poly ts -> dissects poly ts'.
Proof. intros P (ds & H). exists ds. eapply Permutation_trans; [|exact H]. apply Permutation_flat_map, Permutation_sym, P. Qed.

(** *** Lists *)
Lemma nth_rev {A} (l : list A) a x : nth_error (rev l) a = Some x -> nth_error l (back (length l) a) = Some x.
Proof.
  intros H. assert (L : (a < length l)%nat) by (rewrite <- rev_length; apply nth_error_Some; congruence). unfold back. rewrite <- H.
  destruct l as [|y l]; [cbn in L; lia|]. rewrite (nth_error_nth' (rev (y :: l)) y) by (rewrite rev_length; exact L). rewrite (nth_error_nth' (y :: l) y) by lia. f_equal. rewrite rev_nth by exact L. f_equal. lia.
Qed.
Lemma nth_unrev {A} (l : list A) a x : nth_error l a = Some x -> nth_error (rev l) (back (length l) a) = Some x.
Proof. intros H. rewrite <- (rev_involutive l) in H. apply nth_rev in H. rewrite rev_length in H. exact H. Qed.
Lemma f2_length {A B} (P : A -> B -> Prop) l m : Forall2 P l m -> length l = length m.
Proof. induction 1; cbn; congruence. Qed.
Lemma forall2_nth {A B} (P : A -> B -> Prop) l m i a b : Forall2 P l m -> nth_error l i = Some a -> nth_error m i = Some b -> P a b.
Proof. intros F. revert i. induction F; intros [|i] X Y; try discriminate; cbn in X, Y; [congruence|eauto]. Qed.
Lemma forall2_nth_l {A B} (P : A -> B -> Prop) l m i a : Forall2 P l m -> nth_error l i = Some a -> exists b, nth_error m i = Some b /\ P a b.
Proof. intros F. revert i. induction F; intros [|i] X; try discriminate; cbn in *; [injection X as <-; eauto|eauto]. Qed.
Lemma forall2_nth_r {A B} (P : A -> B -> Prop) l m i b : Forall2 P l m -> nth_error m i = Some b -> exists a, nth_error l i = Some a /\ P a b.
Proof. intros F. revert i. induction F; intros [|i] X; try discriminate; cbn in *; [injection X as <-; eauto|eauto]. Qed.
Lemma forall2_perm {A B} (P : A -> B -> Prop) l l' m : Forall2 P l m -> Permutation l l' -> exists m', Permutation m m' /\ Forall2 P l' m'.
Proof.
  intros F Q. revert m F. induction Q as [|x l l' Q IH|x y l|l1 l2 l3 Q1 IH1 Q2 IH2]; intros m F.
  - inversion F; subst. exists []. split; constructor.
  - inversion F as [|? b ? m0 H F']; subst. destruct (IH _ F') as (m1 & X1 & X2). exists (b :: m1). split; constructor; assumption.
  - inversion F as [|? b ? m0 H F']; subst. inversion F' as [|? c ? m1 H' F'']; subst. exists (c :: b :: m1). split; [constructor|]. repeat constructor; assumption.
  - destruct (IH1 _ F) as (m1 & X1 & X2). destruct (IH2 _ X2) as (m2 & X3 & X4). exists m2. split; [eapply Permutation_trans; eassumption|exact X4].
Qed.
Lemma filter_whole {A} (f : A -> bool) l : (forall x, In x l -> f x = true) -> filter f l = l.
Proof. induction l as [|x l IH]; intros H; [reflexivity|]. cbn. rewrite (H x) by now left. f_equal. apply IH. intros y Hy. apply H. now right. Qed.
Lemma parts_build {A B} (C : nat -> list A -> list B -> Prop) (D : nat -> A -> B -> Prop) : (forall i gs ps, C i gs ps -> Forall2 (D i) gs ps) ->
  forall gss k, (forall j gs, nth_error gss j = Some gs -> exists ps, C (k + j)%nat gs ps) ->
  exists P : list (nat * B), Forall2 (fun g q => D (fst q) g (snd q)) (concat gss) P /\ Forall (fun q => (k <= fst q)%nat) P /\
    forall j gs, nth_error gss j = Some gs -> C (k + j)%nat gs (map snd (filter (fun q => Nat.eqb (fst q) (k + j)) P)).
Proof.
  intros CD. induction gss as [|gs gss IH]; intros k H; [exists []; split; [constructor|]; split; [constructor|]; intros [|j] gs; discriminate|].
  destruct (IH (S k)) as (P & P1 & P2 & P3); [intros j gs' Hj; destruct (H (S j) gs' Hj) as (ps & Q); exists ps; now rewrite Nat.add_succ_r in Q|].
  destruct (H 0%nat gs eq_refl) as (ps & Q). rewrite Nat.add_0_r in Q. exists (map (fun b => (k, b)) ps ++ P). cbn [concat]. split; [|split].
  - apply Forall2_app; [|exact P1]. apply CD in Q. clear - Q. induction Q; cbn; constructor; assumption.
  - apply Forall_app. split; [apply Forall_forall; intros q Hq; apply in_map_iff in Hq as (b & <- & _); cbn; lia|]. eapply Forall_impl; [|exact P2]. cbn. intros q Hq. lia.
  - intros j gs' Hj. rewrite filter_app, map_app.
    assert (E1 : filter (fun q : nat * B => Nat.eqb (fst q) (k + j)) (map (fun b => (k, b)) ps) = if Nat.eqb j 0 then map (fun b => (k, b)) ps else []).
    { clear. induction ps as [|b ps IH]; [destruct j; reflexivity|]. cbn [map filter fst]. rewrite IH. destruct j; cbn [Nat.eqb]; [rewrite Nat.add_0_r, Nat.eqb_refl; reflexivity|]. replace (Nat.eqb k (k + S j)) with false by (symmetry; apply Nat.eqb_neq; lia). reflexivity. }
    rewrite E1. destruct j as [|j]; cbn [Nat.eqb].
    + injection Hj as <-. rewrite map_map. cbn [snd]. rewrite map_id. rewrite (FbxObjects.filter_none (fun q : nat * B => Nat.eqb (fst q) (k + 0)) P) by (intros q Hq; rewrite Forall_forall in P2; specialize (P2 _ Hq); apply Nat.eqb_neq; lia). cbn [map]. rewrite app_nil_r, Nat.add_0_r. exact Q.
    + cbn [map app]. specialize (P3 j gs' Hj). rewrite <- Nat.add_succ_comm. exact P3.
Qed.

(** *** One object *)
Section Object.
Context {T : Type} {N : Num T}.
Variables (move turn : vec3 T -> vec3 T).
Variables (g : fgeom T) (mats : list Z) (M : mat4 T).

(** Corner [j] of triangle [f] is corner [a] of polygon [i]. *)
Definition same_corner (tris : list (face T)) (i : nat) (poly : list Z) (f : face T) (j a : nat) : Prop :=
  exists vi, nth_error poly a = Some vi /\ nth_error (fVerts f) j = Some vi /\
    (full_uvs g -> fUVs f <> [] /\ exists u, layer_value (gUVs g) i (first_corner g i + a) vi = Some u /\ nth_error (fUVs f) j = Some (mkV2 (v2x u) (nsub none (v2y u)))) /\
    (full_normals g -> forall n, given_normal tris vi n -> exists i' poly' a' w, nth_error (polygons g) i' = Some poly' /\ nth_error poly' a' = Some vi /\ layer_value (gNormals g) i' (first_corner g i' + a') vi = Some w /\
       n = turn (v3normalize (mat_apply (normal_transform M) w))).
Definition same_piece (tris : list (face T)) (i : nat) (f : face T) (t : nat * nat * nat) : Prop :=
  exists poly, nth_error (polygons g) i = Some poly /\
    (full_materials g -> forall j m, layer_index (gMats g) i 0 0 = Some j -> zidx mats j = Some m -> fMaterial f = m) /\
    let '(a, b, c) := t in same_corner tris i poly f 2 a /\ same_corner tris i poly f 1 b /\ same_corner tris i poly f 0 c.
Definition whole_polygon (i : nat) (ps : list (nat * nat * nat)) : Prop :=
  forall poly, nth_error (polygons g) i = Some poly -> length ps = (length poly - 2)%nat /\ ((3 <= length poly)%nat -> dissects (seq 0 (length poly)) ps).

Lemma corners_nth i poly a vi : nth_error poly a = Some vi -> nth_error (corners g i poly) a = Some (first_corner g i + a, vi)%nat.
Proof.
  intros H. unfold corners. rewrite Mmd2MqoProofs.nth_error_combine, H. assert (L : (a < length poly)%nat) by (apply nth_error_Some; congruence).
  rewrite (nth_error_nth' _ 0%nat) by (rewrite seq_length; exact L). now rewrite seq_nth by exact L.
Qed.
Definition turned_face (f : face T) : face T := mkFace (fUID f) (fVerts f) (fMaterial f) (fUVs f) (map (option_map turn) (fNormals f)).

Lemma tri_corner (f gf : face T) t j x : triangle_of f gf t -> nth_error (fVerts gf) j = Some x ->
  exists a, (j < 3)%nat /\ a = (match j with 0 => fst (fst t) | 1 => snd (fst t) | _ => snd t end)%nat /\ nth_error (fVerts f) a = Some x /\
    (forall u, nth_error (fUVs gf) j = Some u -> nth_error (fUVs f) a = Some u) /\ (forall n, nth_error (fNormals gf) j = Some n -> nth_error (fNormals f) a = Some n) /\
    (fUVs f <> [] -> exists u, nth_error (fUVs gf) j = Some u).
Proof.
  intros ((x0 & y0 & z0 & E) & V & U & Nn & _) H. destruct t as [[a b] c]. cbn [fst snd].
  destruct V as [[_ V]|(x1 & y1 & z1 & V1 & V2 & V3 & V4)]; [congruence|]. rewrite V4 in H.
  assert (J : (j < 3)%nat) by (change 3%nat with (length [x1; y1; z1]); apply nth_error_Some; congruence).
  assert (UU : forall j', (j' < 3)%nat -> (forall u, nth_error (fUVs gf) j' = Some u -> nth_error (fUVs f) (match j' with 0 => a | 1 => b | _ => c end)%nat = Some u) /\ (fUVs f <> [] -> exists u, nth_error (fUVs gf) j' = Some u)).
  { intros j' Hj. destruct U as [(U1 & U2)|(u1 & u2 & u3 & U1 & U2 & U3 & U4)]; [rewrite U2; split; [intros u; destruct j'; discriminate|intros C; now rewrite U1 in C]|]. rewrite U4. destruct j' as [|[|[|j']]]; try lia; cbn; (split; [intros u [= <-]; assumption|eauto]). }
  assert (NN : forall j' n, (j' < 3)%nat -> nth_error (fNormals gf) j' = Some n -> nth_error (fNormals f) (match j' with 0 => a | 1 => b | _ => c end)%nat = Some n).
  { intros j' n Hj. destruct Nn as [(U1 & U2)|(u1 & u2 & u3 & U1 & U2 & U3 & U4)]; [rewrite U2; destruct j'; discriminate|]. rewrite U4. destruct j' as [|[|[|j']]]; try lia; cbn; (intros [= <-]; assumption). }
  eexists. split; [exact J|]. split; [reflexivity|]. split; [destruct j as [|[|[|j]]]; try lia; cbn in H; injection H as <-; assumption|]. split; [apply UU; exact J|]. split; [intros n; apply NN; exact J|apply UU; exact J].
Qed.

Lemma object_pieces (x : object T) fs tris : drawn_all g mats (normal_transform M) fs -> oFaces x = map turned_face fs -> triangles_of x tris ->
  exists P : list (nat * (nat * nat * nat)), Forall2 (fun f q => same_piece tris (fst q) f (snd q)) tris P /\
    forall i poly, nth_error (polygons g) i = Some poly -> whole_polygon i (map snd (filter (fun q => Nat.eqb (fst q) i) P)).
Proof.
  intros (LF & DF) OF (fs' & gss & F1 & F2 & ->). rewrite OF in F1.
  (* polygon [i] with its face *)
  assert (K : forall i gs, nth_error gss i = Some gs -> exists poly f f', nth_error (polygons g) i = Some poly /\ nth_error fs i = Some f /\ nth_error fs' i = Some f' /\ FbxMeshSpec.drawn g mats (normal_transform M) i poly f /\ completed x (turned_face f) f' /\ triangulates f' gs).
  { intros i gs Hi. destruct (forall2_nth_r _ _ _ _ _ F2 Hi) as (f' & E1 & E2). destruct (forall2_nth_r _ _ _ _ _ F1 E1) as (ft & E3 & E4). rewrite nth_error_map in E3. destruct (nth_error fs i) as [f|] eqn:Ef; [|discriminate]. cbn in E3. injection E3 as <-.
    destruct (nth_error (polygons g) i) as [poly|] eqn:Ep; [|apply nth_error_None in Ep; assert (i < length fs)%nat by (apply nth_error_Some; congruence); lia].
    destruct (DF i poly Ep) as (f0 & E5 & E6). rewrite Ef in E5. injection E5 as <-. exists poly, f, f'. auto 10. }
  (* normals *)
  assert (NR : full_normals g -> forall vi n, given_normal (concat gss) vi n -> exists i' poly' a' w, nth_error (polygons g) i' = Some poly' /\ nth_error poly' a' = Some vi /\ layer_value (gNormals g) i' (first_corner g i' + a') vi = Some w /\
       n = turn (v3normalize (mat_apply (normal_transform M) w))).
  { intros FN vi n (f1 & j & I1 & V1 & N1). apply in_concat in I1 as (gs & G1 & G2). apply In_nth_error in G1 as (i & G1). destruct (K i gs G1) as (poly & f & f' & P1 & P2 & P3 & (D1 & _ & D3 & _) & (C1 & _ & _ & C4) & TR).
    destruct TR as (_ & T0 & TR). destruct (Nat.lt_ge_cases (length (fVerts f')) 3) as [L3|L3]; [rewrite (T0 L3) in G2; destruct G2|]. destruct (TR L3) as (ts & T1 & _ & _).
    apply In_nth_error in G2 as (m & G2). destruct (forall2_nth_l _ _ _ _ _ T1 G2) as (t & _ & TT). destruct (tri_corner _ _ _ _ _ TT V1) as (a & _ & _ & A1 & _ & A2 & _). apply A2 in N1. rewrite C1 in A1. cbn [turned_face fVerts] in A1. rewrite D1 in A1.
    specialize (D3 FN). assert (LN : length (fNormals f) = length poly). { apply f2_length in D3. rewrite rev_length in D3. rewrite <- D3. unfold corners. rewrite combine_length, seq_length. lia. }
    assert (CP : complete (turned_face f) = true) by (unfold complete; cbn [turned_face fNormals fVerts]; rewrite map_length, LN, D1, rev_length; apply Nat.eqb_refl).
    rewrite C4, CP in N1. cbn [turned_face fNormals] in N1. rewrite nth_error_map in N1. destruct (nth_error (fNormals f) a) as [n0|] eqn:En; [|discriminate]. cbn in N1. injection N1 as N1.
    apply nth_rev in A1. apply nth_unrev in En. rewrite LN in En. pose proof (corners_nth i _ _ _ A1) as CN. destruct (forall2_nth _ _ _ _ _ _ D3 CN En) as (w & W1 & W2). cbn [fst snd] in W1. subst n0. cbn in N1. injection N1 as <-. exists i, poly, (back (length poly) a), w. auto. }
  destruct (parts_build (fun i gs ps => Forall2 (same_piece (concat gss) i) gs ps /\ whole_polygon i ps) (same_piece (concat gss)) (fun i gs ps H => proj1 H) gss 0) as (P & P1 & _ & P3).
  { intros i gs Hi. cbn [Nat.add]. destruct (K i gs Hi) as (poly & f & f' & Q1 & Q2 & Q3 & (D1 & D2 & _ & D4) & (C1 & C2 & C3 & _) & (T0 & T1 & T2)). cbn [turned_face fVerts fMaterial fUVs] in C1, C2, C3. rewrite C1, D1, rev_length in T0, T1, T2.
    destruct (Nat.lt_ge_cases (length poly) 3) as [L3|L3].
    - exists []. rewrite (T1 L3). split; [constructor|]. intros poly' Hp. rewrite Q1 in Hp. injection Hp as <-. split; [cbn; lia|lia].
    - destruct (T2 L3) as (ts & R1 & R2 & R3). exists (map (turn_tri (length poly)) ts). split.
      + rewrite <- (map_id gs). clear T0 T1 T2 R2 R3 Hi. induction R1 as [|gf t gs ts TT R1 IH]; cbn [map]; constructor; [|exact IH]. exists poly. split; [exact Q1|]. split; [intros FM j m A B; destruct TT as (_ & _ & _ & _ & EM); rewrite EM, C2; exact (D4 FM _ _ j m A B)|].
        assert (SC : forall j v, nth_error (fVerts gf) j = Some v -> same_corner (concat gss) i poly gf j (back (length poly) (match j with 0 => fst (fst t) | 1 => snd (fst t) | _ => snd t end)%nat)).
        { intros j v Hv. destruct (tri_corner _ _ _ _ _ TT Hv) as (a & _ & <- & A1 & A2 & _ & A4). rewrite C1, D1 in A1. apply nth_rev in A1. exists v. split; [exact A1|]. split; [exact Hv|]. split; [|intros FN n; apply NR; exact FN].
          intros FU. specialize (D2 FU). assert (LU : length (fUVs f) = length poly). { apply f2_length in D2. rewrite rev_length in D2. rewrite <- D2. unfold corners. rewrite combine_length, seq_length. lia. }
          assert (NE : fUVs f' <> []) by (rewrite C3; intros C; rewrite C in LU; cbn in LU; lia). destruct (A4 NE) as (u & U1). split; [intros C; rewrite C in U1; destruct j; discriminate|]. pose proof (A2 _ U1) as U2. rewrite C3 in U2. apply nth_unrev in U2. rewrite LU in U2.
          pose proof (corners_nth i _ _ _ A1) as CN. destruct (forall2_nth _ _ _ _ _ _ D2 CN U2) as (w & W1 & W2). cbn [fst snd] in W1. subst u. exists w. auto. }
        destruct TT as ((x0 & y0 & z0 & EV) & _). rewrite EV in SC. destruct t as [[a b] c]. cbn [turn_tri]. cbn [fst snd] in SC. split; [exact (SC 2%nat z0 eq_refl)|]. split; [exact (SC 1%nat y0 eq_refl)|exact (SC 0%nat x0 eq_refl)].
      + intros poly' Hp. rewrite Q1 in Hp. injection Hp as <-. rewrite map_length. apply f2_length in R1. split; [lia|]. intros _. apply turn_dissects. exact R3. }
  exists P. split; [exact P1|]. intros i poly Hp. destruct (nth_error gss i) as [gs|] eqn:Eg.
  - exact (proj2 (P3 i gs Eg)).
  - exfalso. apply nth_error_None in Eg. apply f2_length in F1, F2. rewrite map_length in F1. assert (i < length (polygons g))%nat by (apply nth_error_Some; congruence). lia.
Qed.
Lemma triangle_material (x : object T) tris f : triangles_of x tris -> In f tris -> exists f0, In f0 (oFaces x) /\ fMaterial f0 = fMaterial f.
Proof.
  intros (fs' & gss & F1 & F2 & ->) I. apply in_concat in I as (gs & G1 & G2). apply In_nth_error in G1 as (i & G1). destruct (forall2_nth_r _ _ _ _ _ F2 G1) as (f' & E1 & _ & T0 & T1). destruct (forall2_nth_r _ _ _ _ _ F1 E1) as (ft & E3 & _ & E4 & _).
  exists ft. split; [exact (nth_error_In _ _ E3)|]. destruct (Nat.lt_ge_cases (length (fVerts f')) 3) as [L3|L3]; [rewrite (T0 L3) in G2; destruct G2|]. destruct (T1 L3) as (ts & T2 & _). apply In_nth_error in G2 as (m & G2). destruct (forall2_nth_l _ _ _ _ _ T2 G2) as (t & _ & TT).
  destruct TT as (_ & _ & _ & _ & ->). symmetry. exact E4.
Qed.
End Object.

(** *** The objects of the FBX document *)
Section Objects.
Context {T : Type} {N : Num T}.
Variables (facet : T) (d : fdoc T) (op : foption T) (base : nat).
Lemma fmap_length {A B} (f : A -> fres B) l r : fmap f l = FOk r -> length r = length l.
Proof. intros H. apply fmap_nth in H. apply f2_length in H. now symmetry. Qed.
Lemma faces_uvs (g : fgeom T) nt mats np : forall ps i k fs, convert_faces g nt mats np i k ps = FOk fs -> Forall (fun f : face T => fUVs f = [] \/ length (fUVs f) = length (fVerts f)) fs.
Proof.
  induction ps as [|p ps IH]; intros i k fs H; cbn [convert_faces] in H; [injection H as <-; constructor|]. unbind H. unbind H. injection H as <-. constructor; [|eapply IH; eassumption].
  unfold convert_face in E. unbind E. unbind E. injection E as <-. unfold flip. cbn [fUVs fVerts]. rewrite !swap_all_rev, !rev_length.
  unfold face_uvs in E2. destruct (uv_of g); [injection E2 as <-; now left|right|right]; apply fmap_length in E2; now rewrite seq_length in E2.
Qed.
Lemma faces_normals (g : fgeom T) nt mats np : forall ps i k fs, convert_faces g nt mats np i k ps = FOk fs -> Forall (fun f : face T => ~ In None (fNormals f)) fs.
Proof.
  induction ps as [|p ps IH]; intros i k fs H; cbn [convert_faces] in H; [injection H as <-; constructor|]. unbind H. unbind H. injection H as <-. constructor; [|eapply IH; eassumption].
  unfold convert_face in E. unbind E. unbind E. injection E as <-. unfold flip. cbn [fNormals]. rewrite swap_all_rev, <- in_rev. intros C. apply in_flat_map in C as (c & _ & C). unfold corner_normal in C.
  destruct (if norm_by_vertex g then _ else None) as [n|]; [destruct C as [C|[]]; discriminate|]. destruct (norm_by_corner g); [|destruct C]. destruct (nth_error _ _) as [n|]; [destruct C as [C|[]]; discriminate|destruct C].
Qed.
Lemma described_normals top l (x : object T) : describes d op base top l x -> Forall (fun f : face T => ~ In None (fNormals f)) (oFaces x).
Proof.
  intros (_ & _ & _ & _ & D). destruct (snd l) as [s|].
  - destruct D as (k & g & b & y & G & B & _ & C & V & F). rewrite F. unfold convert_shape in C. destruct (Nat.eqb _ _); [unbind C|]; injection C as <-; cbn [set_verts set_name clone_obj set_faces oFaces]; rewrite Forall_map; apply Forall_forall; intros f _ [].
  - unfold base_object in D. destruct (geometry d _) as [[k g]|]; [|destruct D as (_ & ->); constructor]. destruct D as (_ & mats & _ & CF). exact (faces_normals _ _ _ _ _ _ _ _ CF).
Qed.
Lemma base_indexed path tr (x : object T) : base_object d op base path tr x -> (forall k g, geometry d (last path 0%nat) = Some (k, g) -> indexed g) -> well_indexed x.
Proof.
  unfold base_object. intros B I. destruct (geometry d (last path 0%nat)) as [[k g]|].
  - destruct B as (V & mats & _ & CF). specialize (I k g eq_refl). pose proof (faces_uvs _ _ _ _ _ _ _ _ CF) as U. apply faces_drawn in CF as (L & CF). unfold well_indexed. rewrite V, map_length. unfold indexed in I. rewrite Forall_forall in I, U |- *. intros f Hf. split; [|exact (U f Hf)].
    apply In_nth_error in Hf as (i & Hf). destruct (nth_error (polygons g) i) as [p|] eqn:Ep; [|apply nth_error_None in Ep; assert (i < length (oFaces x))%nat by (apply nth_error_Some; congruence); lia].
    destruct (CF i p Ep) as (f0 & A & B & _). rewrite Hf in A. injection A as <-. rewrite B. apply Forall_rev. apply I. exact (nth_error_In _ _ Ep).
  - destruct B as (_ & E). unfold well_indexed. rewrite E. constructor.
Qed.
Lemma described_indexed top l (x : object T) : describes d op base top l x -> (forall k g, geometry d (model_of l) = Some (k, g) -> indexed g) -> well_indexed x.
Proof.
  intros (_ & _ & _ & _ & D) I. destruct (snd l) as [s|]; [|eapply base_indexed; eassumption]. destruct D as (k & g & b & y & G & B & _ & C & V & F). pose proof (base_indexed _ _ _ B I) as W. unfold base_object in B. rewrite G in B. destruct B as (VB & _).
  assert (Y : oFaces y = map (fun f => mkFace 0 (fVerts f) (fMaterial f) (fUVs f) []) (oFaces b) /\ length (oVerts y) = length (oVerts b)).
  { unfold convert_shape in C. destruct (Nat.eqb _ _); [unbind C|]; injection C as <-; (split; [reflexivity|]); cbn; [|reflexivity]. apply moved_ok in E as (E & _); [rewrite E|]; cbn [set_name clone_obj set_faces oVerts]; rewrite VB, map_length; reflexivity. }
  destruct Y as (Y1 & Y2). unfold well_indexed in *. rewrite V, F, Y1, Y2. rewrite Forall_map. exact W.
Qed.
Lemma blocks_shading top n vs oss ms js : blocks facet d op base top n vs oss ms js -> Forall (fun x : object T => oShading x = 1) (concat oss).
Proof.
  induction 1 as [n|n path vs os oss ms mss js jss H B IH]; [constructor|]. cbn [concat]. apply Forall_app. split; [|exact IH]. destruct H as (mats & _ & H). destruct (geometry d (last path 0%nat)) as [[k g]|].
  - destruct H as (fs & ts & _ & S0 & -> & _). clear B IH. constructor; [reflexivity|]. apply fmap_nth in S0. revert S0. generalize (if opNoShapes op then [] else all_shapes d k g). intros ss S0. generalize (S n). induction S0 as [|s y ss ts H S0 IH0]; intros m; cbn [number_targets]; constructor; [|apply IH0].
    cbn [as_target oShading]. unfold convert_shape in H. destruct (Nat.eqb _ _); [unbind H|]; injection H as <-; reflexivity.
  - destruct H as (-> & _). constructor; [reflexivity|constructor].
Qed.
End Objects.

Section Meshes.
Local Open Scope Z_scope.
Lemma fbx_described tenth facet (d : fdoc R) op depth fuel st mats : opTarget op = ""%string -> opOverride op = None -> in_place op -> tree_doc d depth -> NoDup (fdMats d) ->
  (forall o k g, shown d op o -> geometry d o = Some (k, g) -> indexed g) ->
  convert_fbx tenth facet d fuel op [] 0 = FOk (st, mats) ->
  exists coord vs, fdCoord d = Some coord /\ (NoDup (map (fun p => last p 0%nat) vs) /\ Forall (fun p => p <> []) vs) /\ (forall o, In o (map (fun p => last p 0%nat) vs) <-> shown d op o) /\ mats = map (convert_material tenth d) (fdMats d) /\
    Forall2 (fun l x => shows d op l x /\ (snd l = None -> meshed (convert_material tenth d) d coord mats (model_of l) x) /\ oUID x <> 0 /\ oShading x = 1 /\ well_indexed x /\ Forall (fun f : face R => ~ In None (fNormals f)) (oFaces x)) (flat_map (labels d op) vs) (fsObjs st).
Proof.
  intros OT OO IP TD ND IX H. destruct (fbx_ok _ _ _ _ _ _ _ _ _ OT H) as (coord & sel & vs & oss & ms & js & s & CO & TS & W & B & J & E & EM). rewrite OO in EM. subst mats. exists coord, vs. split; [exact CO|].
  assert (SH := walks_shown d op sel vs TS W).
  split; [|split; [exact SH|split; [reflexivity|]]].
  { split; [|exact (walks_nonempty _ _ _ _ _ W)]. apply (walks_once d op depth TD _ _ _ W).
    + apply NoDup_filter. now apply (children_once d depth TD), (td_scene _ _ TD).
    + intros o I. apply filter_In in I. now apply (children_model d (fdScene d)).
    + intros o o' I I'. apply filter_In in I, I'. rewrite (td_depth _ _ TD _ (fdScene d)), (td_depth _ _ TD o' (fdScene d)); [reflexivity| |]; apply (children_links d depth TD); tauto || exact (td_scene _ _ TD). }
  pose proof (blocks_shading _ _ _ _ _ _ _ _ _ _ B) as SG.
  destruct (blocks_ok facet d op 0 (top_place d op coord) 0 vs oss ms js) as [U F]; [exact (walks_nonempty _ _ _ _ _ W)|exact B|].
  assert (CH := walks_chain d op depth TD _ _ _ W). cbn zeta in CH. cbn [last] in CH. specialize (CH (td_scene _ _ TD)). assert (CS : chain (parent d) (fdScene d) [fdScene d]) by (apply ch_root; exact (parent_scene d depth TD)).
  specialize (CH CS ltac:(intros o I; now apply filter_In in I)). assert (NEP := walks_nonempty _ _ _ _ _ W).
  assert (LP : Forall (fun l => (fst l <> [] /\ chain (parent d) (model_of l) (fdScene d :: fst l)) /\ shown d op (model_of l)) (flat_map (labels d op) vs)).
  { apply Forall_forall. intros l I. apply in_flat_map in I. destruct I as (p & P & I). rewrite Forall_forall in CH, NEP. specialize (CH _ P). specialize (NEP _ P). assert (S1 : shown d op (last p 0%nat)) by (apply SH; apply in_map_iff; exists p; auto).
    unfold labels in I. destruct I as [<-|I]; [now repeat split|]. apply in_map_iff in I. destruct I as (sh & <- & _). now repeat split. }
  assert (UF : Forall (fun x : object R => oUID x <> 0) (concat oss)).
  { apply Forall_forall. intros x Hx. apply (in_map (@oUID R)) in Hx. rewrite U in Hx. apply in_map_iff in Hx as (m & <- & Hm). apply in_seq in Hm. lia. }
  rewrite E. cbn [fsObjs app]. clear - F LP ND IP OO SG UF IX. revert SG UF LP. induction F as [|l x L os D F IH]; intros SG UF LP; [constructor|]. inversion LP as [|? ? [[P1 P2] P3] LP']; subst. inversion SG; subst. inversion UF; subst. constructor; [|now apply IH]. split; [exact (proj1 D)|]. split; [|split; [assumption|split; [assumption|]]].
  2: { split; [|eapply described_normals; exact D]. eapply described_indexed; [exact D|]. intros k g G. eapply IX; eassumption. }
  intros SN. destruct D as (_ & _ & _ & _ & D). rewrite SN in D.
  unfold meshed. unfold base_object in D. fold (model_of l) in D. destruct (geometry d (model_of l)) as [[k g]|]; [|exact D]. destruct D as (V & mats & MM & CF). destruct (placed_world d op coord (fst l) IP P1 P2) as (w & WO & PW). fold (model_of l) in WO. rewrite PW in V, CF.
  exists w, mats. split; [exact WO|]. split; [|split; [exact V|now apply faces_drawn]]. intros j mo OM IM. apply In_nth_error in IM. destruct IM as (p & IM). exact (materials_ok _ _ _ _ _ _ _ (@nil (material R)) j mo p OO MM eq_refl ND OM IM).
Qed.
End Meshes.

(** *** The documents *)
Section Documents.
Variables (tenth facet : R) (d : fdoc R) (op : foption R) (depth : nat -> nat) (fuel : nat) (st : fstate R) (mats : list (material R)).
Hypothesis OT : opTarget op = ""%string.
Hypothesis OO : opOverride op = None.
Hypothesis IP : in_place op.
Hypothesis TD : tree_doc d depth.
Hypothesis ND : NoDup (fdMats d).
Hypothesis EC : convert_fbx tenth facet d fuel op [] 0 = FOk (st, mats).
Variables (move turn : vec3 R -> vec3 R) (dd : document R).
Hypothesis OB : Forall2 (moved_object move turn) (fsObjs st) (dObjects dd).
Hypothesis MA : dMaterials dd = mats.
Variables (scale centi eps : R) (ign unlit : bool) (opaque99 rough : R) (tex_alpha : material R -> bool) (bones : list (bone R)) (sets : list target_list) (g : gdoc R).
Hypothesis EG : to_gltf scale centi eps ign unlit opaque99 rough tex_alpha dd bones sets = Some g.
Hypothesis NDB : NoDup (map bID bones).
Hypothesis FEW : Forall (fun o => Z.of_nat (length (lists_of o bones)) <= 65536) (dObjects dd).
Hypothesis IX : forall o k f, shown d op o -> geometry d o = Some (k, f) -> indexed f.
Hypothesis PT : forall o k f i poly, shown d op o -> geometry d o = Some (k, f) -> nth_error (polygons f) i = Some poly -> exists mo, painted d o f i mo.
Hypothesis LO : forall mo, In mo (fdMats d) -> ~ left_out (mtName (convert_material tenth d mo)).
Hypothesis NM : forall o s, shown d op o -> In s sets -> ~ In (object_name (name d o)) (tlTargets s).

Definition placed_as (coord : mat4 R) (l : @label R) (x : object R) : Prop :=
  oVisible x = (match snd l with None => true | Some _ => false end) /\ oShading x = 1 /\
  (snd l = None -> shown d op (model_of l) /\ existsb (fun s => existsb (fun t => String.eqb t (oName x)) (tlTargets s)) sets = false /\
     match geometry d (model_of l) with
     | None => oFaces x = []
     | Some (k, f) => exists w ms fs, world_of d (model_of l) w /\ numbers (convert_material tenth d) d mats (model_of l) ms /\ oVerts x = map move (map (mat_apply (mat_mul coord w)) (gVerts f)) /\
         oFaces x = map (turned_face turn) fs /\ drawn_all f ms (normal_transform (mat_mul coord w)) fs
     end).
Definition stands_for (coord : mat4 R) (q : object R * list (face R) * face R) (r : piece) : Prop :=
  let '(x, tris, f) := q in let '(o, i, t) := r in
  exists k h w ms, shown d op o /\ geometry d o = Some (k, h) /\ world_of d o w /\ numbers (convert_material tenth d) d mats o ms /\
    oVerts x = map move (map (mat_apply (mat_mul coord w)) (gVerts h)) /\ oShading x = 1 /\ same_piece turn h ms (mat_mul coord w) tris i f t.
Definition bases (L : list (@label R)) : list nat := map model_of (filter (fun l => match snd l with None => true | Some _ => false end) L).

Lemma bases_app l1 l2 : bases (l1 ++ l2) = bases l1 ++ bases l2.
Proof. unfold bases. now rewrite filter_app, map_app. Qed.
Lemma bases_labels p : bases (labels d op p) = [last p 0%nat].
Proof.
  unfold bases, labels. cbn [filter snd map]. rewrite FbxObjects.filter_none by (intros l Hl; apply in_map_iff in Hl as (s & <- & _); reflexivity). reflexivity.
Qed.
Lemma bases_flat vs : bases (flat_map (labels d op) vs) = map (fun p => last p 0%nat) vs.
Proof. induction vs as [|p vs IH]; [reflexivity|]. cbn [flat_map map]. rewrite bases_app, IH, bases_labels. reflexivity. Qed.
Lemma pieces_app o i l1 l2 : pieces_of o i (l1 ++ l2) = pieces_of o i l1 ++ pieces_of o i l2.
Proof. unfold pieces_of. now rewrite filter_app, map_app. Qed.
Lemma pieces_other o i l : (forall q, In q l -> fst (fst q) <> o) -> pieces_of o i l = [].
Proof. intros H. unfold pieces_of. rewrite FbxObjects.filter_none; [reflexivity|]. intros q Hq. apply H in Hq. apply Nat.eqb_neq in Hq. now rewrite Hq. Qed.
Lemma pieces_own o i (P : list (nat * (nat * nat * nat))) : pieces_of o i (map (fun q => (o, fst q, snd q)) P) = map snd (filter (fun q => Nat.eqb (fst q) i) P).
Proof. unfold pieces_of. induction P as [|[j t] P IH]; [reflexivity|]. cbn [map filter fst snd]. rewrite Nat.eqb_refl. cbn [andb]. destruct (Nat.eqb j i); cbn [map snd]; now rewrite IH. Qed.

Lemma all_pieces coord L objs : Forall2 (placed_as coord) L objs -> NoDup (bases L) ->
  forall tss, Forall2 (fun o ts => if oVisible o then triangles_of o ts else ts = []) (exported_objects ign sets objs) tss ->
  exists P, Forall2 (stands_for coord) (owned (exported_objects ign sets objs) tss) P /\ (forall q, In q P -> In (fst (fst q)) (bases L)) /\
    forall o k h i poly, In o (bases L) -> geometry d o = Some (k, h) -> nth_error (polygons h) i = Some poly -> whole_polygon h i (pieces_of o i P).
Proof.
  unfold exported_objects, owned, bases. induction 1 as [|l x L objs PA F IH]; intros NB tss FT.
  { inversion FT; subst. exists []. split; [constructor|]. split; [intros q []|intros o k h i poly []]. }
  set (keep := fun o : object R => if existsb (fun s => existsb (fun t => String.eqb t (oName o)) (tlTargets s)) sets then false else if ign then oVisible o && negb (Nat.eqb (length (oFaces o)) 0) else true) in *.
  destruct PA as (V & SH & PA). destruct (snd l) as [s|] eqn:El.
  - (* a shape: nothing is drawn *)
    cbn [filter] in NB |- *. rewrite El in NB |- *. cbn [filter] in FT. destruct (keep x); [|exact (IH NB tss FT)]. inversion FT as [|? ts ? tss' T1 T2]; subst. rewrite V in T1. subst ts. cbn [combine flat_map fst snd map app]. exact (IH NB tss' T2).
  - cbn [filter] in NB |- *. rewrite El in NB |- *. cbn [map] in NB |- *. inversion NB as [|? ? NI NB']; subst. destruct (PA eq_refl) as (S1 & EX & G).
    assert (KX : keep x = true \/ oFaces x = []).
    { unfold keep. rewrite EX. destruct ign; [|now left]. rewrite V. destruct (oFaces x); [now right|left; reflexivity]. }
    cbn [filter] in FT |- *. destruct (keep x) eqn:EK.
    + inversion FT as [|? ts ? tss' T1 T2]; subst. rewrite V in T1. destruct (IH NB' tss' T2) as (P & P1 & P2 & P3).
      assert (Q : exists Q, Forall2 (stands_for coord) (map (fun f => (x, ts, f)) ts) (map (fun q => (model_of l, fst q, snd q)) Q) /\
        forall k h i poly, geometry d (model_of l) = Some (k, h) -> nth_error (polygons h) i = Some poly -> whole_polygon h i (map snd (filter (fun q => Nat.eqb (fst q) i) Q))).
      { destruct (geometry d (model_of l)) as [[k h]|] eqn:EGm.
        - destruct G as (w & ms & fs & G1 & G2 & G3 & G4 & G5). destruct (object_pieces turn h ms (mat_mul coord w) x fs ts G5 G4 T1) as (Q & Q1 & Q2). exists Q. split; [|intros k' h' i poly [= <- <-]; apply Q2].
          assert (Z0 : forall tt, Forall2 (fun f q => same_piece turn h ms (mat_mul coord w) ts (fst q) f (snd q)) tt Q -> Forall2 (stands_for coord) (map (fun f => (x, ts, f)) tt) (map (fun q => (model_of l, fst q, snd q)) Q)).
          { clear Q1 Q2. intros tt Q1. induction Q1 as [|f q tt Q R1 Q1 IH1]; cbn [map]; constructor; [|exact IH1]. exists k, h, w, ms. repeat (split; [assumption|]). exact R1. }
          exact (Z0 ts Q1).
        - exists []. split; [|intros k h i poly [=]]. destruct T1 as (fs' & gss & A & B & ->). rewrite G in A. inversion A; subst. inversion B; subst. constructor. }
      destruct Q as (Q & Q1 & Q2). exists (map (fun q => (model_of l, fst q, snd q)) Q ++ P). cbn [combine flat_map fst snd]. split; [apply Forall2_app; assumption|]. split.
      * intros q Hq. apply in_app_or in Hq as [Hq|Hq]; [left; apply in_map_iff in Hq as (r & <- & _); reflexivity|right; exact (P2 q Hq)].
      * intros o k h i poly Ho EGo Ep. rewrite pieces_app. destruct Ho as [<-|Ho].
        -- rewrite pieces_own, (pieces_other _ _ P), app_nil_r by (intros q Hq C; apply NI; rewrite <- C; exact (P2 q Hq)). exact (Q2 k h i poly EGo Ep).
        -- rewrite (pieces_other o i (map _ Q)) by (intros q Hq C; apply in_map_iff in Hq as (r & <- & _); cbn in C; apply NI; rewrite C; exact Ho). exact (P3 o k h i poly Ho EGo Ep).
    + destruct KX as [KX|KX]; [discriminate|]. destruct (IH NB' tss FT) as (P & P1 & P2 & P3). exists P. split; [exact P1|]. split; [intros q Hq; right; exact (P2 q Hq)|].
      intros o k h i poly [<-|Ho] EGo Ep; [|exact (P3 o k h i poly Ho EGo Ep)]. exfalso. rewrite EGo in G. destruct G as (w & ms & fs & _ & _ & _ & G4 & G5 & _). rewrite KX in G4. destruct fs; [|discriminate]. destruct (polygons h); [destruct i; discriminate|discriminate].
Qed.

Lemma moved_placed coord l x x' : shows d op l x -> (snd l = None -> shown d op (model_of l)) -> (snd l = None -> meshed (convert_material tenth d) d coord mats (model_of l) x) -> oShading x = 1 -> moved_object move turn x x' -> placed_as coord l x'.
Proof.
  intros (_ & SV & SN) HS M SHD (M1 & M2 & M3 & M4 & _ & M6 & _ & M8). unfold placed_as. rewrite M4, M6, SV. split; [reflexivity|]. split; [exact SHD|]. intros E. specialize (HS E). specialize (M E). rewrite E in SN. split; [exact HS|]. split.
  - rewrite M3, SN. apply not_true_is_false. intros C. apply existsb_exists in C as (s & C1 & C2). apply existsb_exists in C2 as (t & C2 & C3). apply String.eqb_eq in C3. subst t. exact (NM _ _ HS C1 C2).
  - unfold meshed in M. destruct (geometry d (model_of l)) as [[k h]|].
    + destruct M as (w & ms & W1 & W2 & W3 & W4). exists w, ms, (oFaces x). rewrite M1, W3. auto.
    + destruct M as (_ & M). rewrite M8, M. reflexivity.
Qed.

(** The export succeeds. *)
Theorem fbx_exported bones' sets' : 0 <= opDepth op -> Forall (fun b => 0 < bParent b -> In (bParent b) (map bID bones')) bones' ->
  (forall o l e, In o (dObjects dd) -> In l (lists_of o bones') -> In e l -> 0 <= get_vertex_index_by_id o (fst e) < Z.of_nat (length (oVerts o))) ->
  (forall o names t, In o (dObjects dd) -> targets_of sets' (oName o) names -> In t names -> In t (map (@oName R) (dObjects dd))) ->
  to_gltf scale centi eps ign unlit opaque99 rough tex_alpha dd bones' sets' <> None.
Proof.
  intros OD BP BW BT. destruct (fbx_described tenth facet d op depth fuel st mats OT OO IP TD ND IX EC) as (coord & vs & CO & (NV & VN) & SV & EM & F).
  assert (HX : Forall (fun o => oUID o <> 0 /\ 0 <= oDepth o /\ well_indexed o /\ Forall (fun f => ~ In None (fNormals f)) (oFaces o)) (dObjects dd)).
  { assert (LN : Forall (fun l => fst l <> []) (flat_map (labels d op) vs)).
    { apply Forall_forall. intros l Hl. apply in_flat_map in Hl as (p & Hp & Hl). assert (NE : p <> []) by (rewrite Forall_forall in VN; exact (VN p Hp)).
      unfold labels in Hl. destruct Hl as [<-|Hl]; [exact NE|]. apply in_map_iff in Hl as (sh & <- & _). exact NE. }
    clear - OB F OD LN. revert OB F LN. generalize (fsObjs st) as xs, (dObjects dd) as xs', (flat_map (labels d op) vs) as L. intros xs xs' L OB'. revert L. induction OB' as [|x x' xs xs' (V & U & _ & _ & DP & _ & _ & Fa) OB' IH]; intros L F LN; inversion F as [|l ? L' ? (A1 & _ & A3 & _ & A5 & A6) F']; subst; [constructor|]. inversion LN as [|? ? LN1 LN2]; subst. constructor; [|eapply IH; eassumption].
    split; [rewrite U; exact A3|]. split; [rewrite DP; destruct A1 as (-> & _); unfold depth_of; destruct (snd l), (fst l); cbn [length]; try congruence; lia|]. split; [unfold well_indexed in *; rewrite V, Fa, map_length, Forall_map; cbn [fVerts fUVs]; exact A5|].
    rewrite Fa, Forall_map. eapply Forall_impl; [|exact A6]. cbn [fNormals]. intros f Hf C. apply in_map_iff in C as ([n|] & C & I); [discriminate|exact (Hf I)]. }
  assert (HU : fix_ids 0 (dObjects dd) = dObjects dd) by (apply fix_ids_id; eapply Forall_impl; [|exact HX]; cbn; tauto).
  apply GltfTotal.to_gltf_total; [exact BP|]. rewrite HU. rewrite Forall_forall in HX |- *. intros o Ho. destruct (HX o Ho) as (_ & H1 & H2 & H3). split; [exact H1|]. split; [exact H2|]. split; [eapply Forall_impl; [|exact H3]; cbn; intros f Hf _; exact Hf|]. split; [intros l e; apply BW; exact Ho|intros names t; apply BT; exact Ho].
Qed.

Theorem fbx_drawn : exists coord L, fdCoord d = Some coord /\ Forall2 (shows_piece scale eps tenth unlit move turn d coord (gdMats g)) L (DrawnSpec.drawn g) /\ Forall (fun q => shown d op (fst (fst q))) L /\
  forall o k h i poly, shown d op o -> geometry d o = Some (k, h) -> nth_error (polygons h) i = Some poly ->
    length (pieces_of o i L) = (length poly - 2)%nat /\ ((3 <= length poly)%nat -> dissects (seq 0 (length poly)) (pieces_of o i L)).
Proof.
  destruct (fbx_described tenth facet d op depth fuel st mats OT OO IP TD ND IX EC) as (coord & vs & CO & (NV & VN) & SV & EM & F). exists coord.
  assert (HA : Forall2 (fun l x' => placed_as coord l x' /\ oUID x' <> 0 /\ well_indexed x') (flat_map (labels d op) vs) (dObjects dd)).
  { assert (LS : Forall (fun l => snd l = None -> shown d op (model_of l)) (flat_map (labels d op) vs)).
    { apply Forall_forall. intros l Hl E. apply SV. rewrite <- bases_flat. unfold bases. apply in_map_iff. exists l. split; [reflexivity|]. apply filter_In. rewrite E. auto. }
    revert LS. revert F. generalize (flat_map (labels d op) vs) as L. revert OB. generalize (fsObjs st) as xs. generalize (dObjects dd) as xs'.
    intros xs' xs OB' L F' LS. revert L F' LS. induction OB' as [|x x' xs xs' MO OB' IH]; intros L F' LS; inversion F' as [|l ? L' ? (A1 & A2 & A3 & A4 & A5 & _) F'']; subst; [constructor|]. inversion LS; subst. constructor; [|apply IH; assumption].
    split; [eapply moved_placed; eassumption|]. destruct MO as (V & U & _ & _ & _ & _ & _ & Fa). split; [rewrite U; exact A3|]. unfold well_indexed in *. rewrite V, Fa, map_length, Forall_map. cbn [fVerts fUVs]. exact A5. }
  assert (HU : fix_ids 0 (dObjects dd) = dObjects dd) by (apply fix_ids_id; clear - HA; induction HA as [|? ? ? ? (_ & A & _) _ IH]; constructor; assumption).
  assert (HW : Forall well_indexed (dObjects dd)) by (clear - HA; induction HA as [|? ? ? ? (_ & _ & A) _ IH]; constructor; assumption).
  assert (HP : Forall2 (placed_as coord) (flat_map (labels d op) vs) (dObjects dd)) by (clear - HA; induction HA as [|? ? ? ? (A & _ & _) _ IH]; constructor; assumption).
  assert (FEW' : Forall (fun o => Z.of_nat (length (lists_of o bones)) <= 65536) (exported_objects ign sets (fix_ids 0 (dObjects dd)))).
  { rewrite HU. apply Forall_forall. intros o Ho. unfold exported_objects in Ho. apply filter_In in Ho as (Ho & _). rewrite Forall_forall in FEW. exact (FEW o Ho). }
  destruct (doc_drawn scale centi eps ign unlit opaque99 rough tex_alpha dd bones sets g EG NDB HW FEW') as (mm & tss & l & RN & FT & PE & FD). rewrite HU in *. rewrite MA in RN.
  destruct (all_pieces coord _ _ HP ltac:(rewrite bases_flat; exact NV) tss FT) as (P & P1 & P2 & P3). rewrite bases_flat in P2, P3.
  destruct RN as (R1 & R2 & _).
  (* all triangles have a material *)
  assert (MP : forall q r, In q (owned (exported_objects ign sets (dObjects dd)) tss) -> stands_for coord q r ->
    exists mo kk gm, (forall k h, geometry d (fst (fst r)) = Some (k, h) -> painted d (fst (fst r)) h (snd (fst r)) mo) /\
      mm (fMaterial (snd q)) = Some kk /\ zidx (gdMats g) kk = Some gm /\ gtName gm = mtName (convert_material tenth d mo) /\ gtColor gm = mtColor (convert_material tenth d mo)).
  { intros [[x tris] f] [[o i] t] IQ (k & h & w & ms & S1 & EGo & WO & NU & VX & SX & poly & EP & MT & _). cbn [fst snd]. destruct (PT o k h i poly S1 EGo EP) as (mo & PA). exists mo. pose proof PA as (FM & j & J1 & J2 & J3). destruct (NU j mo J2 J3) as (m & M1 & M2). specialize (MT FM j _ J1 M1).
    assert (ZM : zidx mats (Z.of_nat m) = Some (convert_material tenth d mo)) by (rewrite zidx_nat; exact M2).
    assert (US : used (exported_objects ign sets (dObjects dd)) (fMaterial f)).
    { unfold owned in IQ. apply in_flat_map in IQ as ([x0 ts0] & I1 & I2). cbn [fst snd] in I2. apply in_map_iff in I2 as (f0 & [= <- <- <-] & I2). pose proof (in_combine_l _ _ _ _ I1) as I3.
      assert (TR : if oVisible x0 then triangles_of x0 ts0 else ts0 = []).
      { apply In_nth_error in I1 as (n & I1). rewrite Mmd2MqoProofs.nth_error_combine in I1. destruct (nth_error (exported_objects ign sets (dObjects dd)) n) as [x1|] eqn:E1; [|discriminate]. destruct (nth_error tss n) as [t1|] eqn:E2; [|discriminate]. injection I1 as -> ->. exact (forall2_nth _ _ _ _ _ _ FT E1 E2). }
      destruct (oVisible x0) eqn:EV; [|subst ts0; destruct I2]. destruct (triangle_material _ _ _ TR I2) as (f1 & I4 & I5). exists x0, f1. auto. }
    destruct (proj2 (R2 (fMaterial f))) as (kk & EK); [exists (convert_material tenth d mo); rewrite MT; split; [exact ZM|split; [rewrite <- MT; exact US|apply LO; exact J3]]|].
    destruct (R1 _ _ EK) as (m' & gm & A1 & A2 & A3 & A4 & _). rewrite MT, ZM in A1. injection A1 as <-. exists kk, gm. split; [intros k' h' E'; rewrite EGo in E'; injection E' as <- <-; exact PA|auto]. }
  assert (PE' : Permutation (owned (exported_objects ign sets (dObjects dd)) tss) l).
  { apply Permutation_sym. rewrite filter_whole in PE; [exact PE|]. intros q Hq. apply In_nth_error in Hq as (n & Hq). destruct (forall2_nth_l _ _ _ _ _ P1 Hq) as (r & _ & R0). destruct (MP q r (nth_error_In _ _ Hq) R0) as (mo & kk & gm & _ & E & _). now rewrite E. }
  destruct (forall2_perm _ _ _ _ P1 PE') as (L & PL & FL). exists L. split; [exact CO|]. split; [|split].
  - assert (IL : forall q, In q l -> In q (owned (exported_objects ign sets (dObjects dd)) tss)) by (intros q Hq; exact (Permutation_in _ (Permutation_sym PE') Hq)).
    clear PE PE' PL P1 P2 P3 P FT. revert L FL FD IL. generalize (DrawnSpec.drawn g) as D0. induction l as [|q l IH]; intros D0 L FL FD IL; inversion FL as [|? r ? L' S0 FL']; subst; inversion FD as [|? t ? D1 S2 FD']; subst; [constructor|]. constructor; [|apply IH; [assumption|assumption|intros; apply IL; now right]].
    destruct (MP q r (IL q (or_introl eq_refl)) S0) as (mo & kk & gm & PA & E1 & E2 & E3 & E4). destruct q as [[x tris] f], r as [[o i] [[a b] c]]. cbn [fst snd] in *. destruct S0 as (k & h & w & ms & S1 & EGo & WO & NU & VX & SX & poly & EP & MT & C1 & C2 & C3). specialize (PA k h EGo).
    destruct t as [mt [[cx cy] cz]]. destruct S2 as (T1 & T2 & T3 & T4 & T5). cbn [fst snd] in *.
    exists k, h, w, poly, mo, kk, gm. split; [exact EGo|]. split; [exact WO|]. split; [exact EP|]. split; [exact PA|]. split; [cbn [fst]; rewrite T1; exact E1|]. split; [exact E2|]. split; [exact E3|]. split; [exact E4|].
    assert (CC : forall j aa cc, same_corner turn h (mat_mul coord w) tris i poly f j aa -> shows_corner scale eps centi unlit bones (length (exported_objects ign sets (dObjects dd))) x tris f j cc -> shows_fcorner scale eps unlit move turn coord h w i poly aa cc).
    { intros j aa cc (vi & A1 & A2 & A3 & A4) (y & p & B1 & B2 & B3 & B4 & B5 & _). rewrite A2 in B1. injection B1 as <-. rewrite VX, map_map in B2. unfold zidx in B2. destruct (vi <? 0) eqn:EV; [discriminate|]. rewrite nth_error_map in B2. destruct (nth_error (gVerts h) (Z.to_nat vi)) as [v|] eqn:Ev; [|discriminate]. cbn in B2. injection B2 as <-.
      exists vi, v. split; [exact A1|]. split; [unfold zidx; rewrite EV; exact Ev|]. split; [exact B3|]. split.
      - intros FU. destruct (A3 FU) as (NE & u & U1 & U2). destruct (B4 NE) as (u' & t & V1 & V2 & V3). rewrite U2 in V1. injection V1 as <-. exists u, t. auto.
      - intros FN. rewrite SX in B5. cbn [Z.leb Z.compare orb] in B5. change (1 <=? 0) with false in B5. cbn [orb] in B5. destruct unlit; [exact B5|]. destruct B5 as (n & N1 & N2). destruct (A4 FN n N2) as (i' & poly' & a' & ww & W1 & W2 & W3 & W4). exists i', poly', a', ww. rewrite N1, W4. auto. }
    split; [eapply CC; eassumption|]. split; [eapply CC; eassumption|eapply CC; eassumption].
  - apply Forall_forall. intros q Hq. apply SV. apply P2. exact (Permutation_in _ (Permutation_sym PL) Hq).
  - intros o k h i poly S1 EGo EP. destruct (P3 o k h i poly (proj2 (SV o) S1) EGo EP poly EP) as (A & B).
    assert (PP : Permutation (pieces_of o i P) (pieces_of o i L)) by (unfold pieces_of; apply Permutation_map, filter_perm; exact PL).
    split; [rewrite <- (Permutation_length PP); exact A|]. intros L3. eapply dissects_perm; [exact PP|]. exact (B L3).
Qed.
End Documents.
