(** Blend shapes of converted FBX documents. *)
From Coq Require Import String Ascii List ZArith Bool Lia Reals.
From Verif.Model Require Import Num NumR Vec Matrix Mqo MqoDoc Mmd2Mqo FbxDoc Fbx2Mqo.
From Verif.Spec Require Import GltfSpec FbxDocSpec FbxSceneSpec FbxMeshSpec.
From Verif.Proofs Require Mmd2MqoFaces.
From Verif.Proofs Require Import FbxDocProofs FbxWalk FbxTree FbxObjects FbxFaces FbxPlace.
Import ListNotations.
Local Open Scope list_scope.
Local Open Scope Z_scope.

Section S.
Context {T : Type} {N : Num T}.

Lemma offset_unused idx : forall (offs : list (vec3 T)) k, ~ In k idx -> offset_of idx offs k = None.
Proof. induction idx as [|i idx IH]; intros [|o offs] k NI; try reflexivity. cbn [offset_of]. rewrite IH by (intro I; apply NI; now right). destruct (Z.eqb_spec i k); [exfalso; apply NI; now left|reflexivity]. Qed.
Lemma moved_ok (g : fgeom T) tr : forall idx offs vs r, move_verts g tr idx offs vs = FOk r -> length vs = length (gVerts g) ->
  length r = length (gVerts g) /\ forall k v x, nth_error (gVerts g) k = Some v -> nth_error vs k = Some x ->
    nth_error r k = Some (match offset_of idx offs (Z.of_nat k) with Some o => mat_apply tr (v3add v o) | None => x end).
Proof.
  induction idx as [|i idx IH]; intros offs vs r H L; cbn [move_verts] in H; [injection H as <-; split; [exact L|]; intros k v x _ X; exact X|].
  destruct offs as [|o offs]; [injection H as <-; split; [exact L|]; intros k v x _ X; exact X|]. cbn [offset_of].
  destruct (Z.ltb_spec i (Z.of_nat (length vs))) as [B|B].
  - destruct (Z.ltb_spec i 0); [discriminate|]. unbind H. apply fopt_ok in E. destruct (IH _ _ _ H) as [A C]; [now rewrite Mmd2MqoFaces.list_set_length|]. split; [exact A|]. intros k v x V X.
    assert (NTH := Mmd2MqoFaces.list_set_nth vs (Z.to_nat i) (mat_apply tr (v3add a o)) k ltac:(lia)).
    destruct (Z.eqb_spec i (Z.of_nat k)) as [->|NE].
    + rewrite Nat2Z.id in NTH. rewrite Nat.eqb_refl in NTH. rewrite Nat2Z.id in C. rewrite (C k v _ V NTH). rewrite zidx_nat in E. assert (a = v) by congruence. subst. now destruct (offset_of idx offs (Z.of_nat k)).
    + destruct (Nat.eqb_spec k (Z.to_nat i)) as [->|NE2]; [rewrite Z2Nat.id in NE by lia; congruence|]. rewrite X in NTH. rewrite (C k v x V NTH). now destruct (offset_of idx offs (Z.of_nat k)).
  - destruct (IH _ _ _ H L) as [A C]. split; [exact A|]. intros k v x V X. rewrite (C k v x V X). assert (K : (k < length (gVerts g))%nat) by (apply nth_error_Some; congruence).
    destruct (Z.eqb_spec i (Z.of_nat k)); [lia|]. now destruct (offset_of idx offs (Z.of_nat k)).
Qed.

Lemma shape_ok s b (g : fgeom T) tr y : convert_shape s b g tr = FOk y -> oVerts b = map (mat_apply tr) (gVerts g) ->
  oFaces y = map (fun f => mkFace 0 (fVerts f) (fMaterial f) (fUVs f) []) (oFaces b) /\ deformed tr g s (oVerts y).
Proof.
  unfold convert_shape, deformed. intros H V. destruct (Nat.eqb_spec (length (shVerts s)) (length (shIndexes s))) as [E|E].
  - unbind H. injection H as <-. cbn [set_verts set_name clone_obj set_faces oVerts oFaces] in *. split; [reflexivity|]. assert (LB : length (oVerts b) = length (gVerts g)) by (rewrite V; apply map_length).
    destruct (moved_ok _ _ _ _ _ _ E0 LB) as [A C]. split; [exact A|]. intros k v K. rewrite (C k v (mat_apply tr v) K) by (rewrite V; now apply map_nth_error). f_equal. destruct (offset_of _ _ _); reflexivity.
  - injection H as <-. cbn [set_verts set_name clone_obj set_faces oVerts oFaces]. split; [reflexivity|]. rewrite V. split; [apply map_length|]. intros k v K. now apply map_nth_error.
Qed.

Lemma number_targets_names n dep (ts : list (object T)) : map (@oName T) (number_targets n dep ts) = map (@oName T) ts.
Proof. revert n. induction ts as [|t ts IH]; intros n; [reflexivity|]. cbn [map number_targets]. f_equal. apply IH. Qed.
Lemma targets_ok facet (d : fdoc T) op base n path tr os ms js : block facet d op base n (last path 0%nat) (opDepth op + Z.of_nat (length path) - 1) tr os ms js ->
  exists b ts, os = b :: ts /\ (forall k g, geometry d (last path 0%nat) = Some (k, g) -> oVerts b = map (mat_apply tr) (gVerts g)) /\ ms = morph_of (b :: ts) /\
    Forall2 (fun s t => oVisible t = false /\ oName t = shown_name (shName s) /\ oDepth t = oDepth b + 1 /\
      oFaces t = map (fun f => mkFace 0 (fVerts f) (fMaterial f) (fUVs f) []) (oFaces b) /\ (forall k g, geometry d (last path 0%nat) = Some (k, g) -> deformed tr g s (oVerts t))) (shapes_at d op (last path 0%nat)) ts.
Proof.
  intros (mats & M & B). unfold shapes_at. destruct (geometry d (last path 0%nat)) as [[k g]|].
  - destruct B as (fs & ts & F & S & -> & -> & _). eexists. eexists. split; [reflexivity|]. split; [intros k' g' E; injection E as <- <-; reflexivity|]. split.
    + unfold morph_of. destruct ts as [|t ts]; [reflexivity|]. cbn [tl]. rewrite number_targets_names. reflexivity.
    + apply fmap_nth in S. revert S. generalize (if opNoShapes op then [] else all_shapes d k g). intros ss S. generalize (Datatypes.S n). induction S as [|s y ss ts H S IH]; intros m; cbn [number_targets]; [constructor|]. constructor; [|apply IH].
      destruct (shape_head _ _ _ _ _ H) as (A1 & _). destruct (shape_ok _ _ _ _ _ H eq_refl) as (A2 & A3). cbn [as_target oVisible oName oDepth oFaces oVerts]. split; [reflexivity|]. split; [exact A1|]. split; [reflexivity|]. split; [exact A2|]. intros k' g' E. injection E as <- <-. exact A3.
  - destruct B as (-> & -> & _). eexists. exists []. split; [reflexivity|]. split; [discriminate|]. split; [reflexivity|]. destruct (opNoShapes op); constructor.
Qed.
End S.

Lemma fbx_shapes tenth facet (d : fdoc R) op depth fuel base objs st mats : opTarget op = ""%string -> in_place op -> tree_doc d depth -> convert_fbx tenth facet d fuel op objs base = FOk (st, mats) ->
  exists coord vs oss, fdCoord d = Some coord /\ (forall o, In o (map (fun p => last p 0%nat) vs) <-> shown d op o) /\ fsObjs st = objs ++ concat oss /\ fsMorphs st = flat_map morph_of oss /\
    Forall2 (fun p os => exists b ts, os = b :: ts /\ Forall2 (target_of d coord (last p 0%nat) b) (shapes_at d op (last p 0%nat)) ts) vs oss.
Proof.
  intros OT IP TD H. destruct (fbx_ok _ _ _ _ _ _ _ _ _ OT H) as (coord & sel & vs & oss & ms & js & s & CO & TS & W & B & J & E & _).
  exists coord, vs, oss. split; [exact CO|]. split; [exact (walks_shown d op sel vs TS W)|]. split; [now rewrite E|]. rewrite E. cbn [fsMorphs]. clear E J H.
  assert (CH := walks_chain d op depth TD _ _ _ W). cbn zeta in CH. cbn [last] in CH. specialize (CH (td_scene _ _ TD)). assert (CS : chain (parent d) (fdScene d) [fdScene d]) by (apply ch_root; exact (parent_scene d depth TD)).
  specialize (CH CS ltac:(intros o I; now apply filter_In in I)). assert (NEP := walks_nonempty _ _ _ _ _ W). clear W TS. revert CH NEP.
  induction B as [n|n path vs os oss ms mss js jss Bl B IH]; intros CH NEP; [split; [reflexivity|constructor]|]. inversion CH; subst. inversion NEP; subst. destruct IH as [-> F]; [assumption|assumption|].
  destruct (targets_ok _ _ _ _ _ _ _ _ _ _ Bl) as (b & ts & -> & V & -> & Ts). split; [reflexivity|]. constructor; [|exact F]. exists b, ts. split; [reflexivity|].
  destruct (placed_world d op coord path IP H3 H1) as (w & WO & PW). rewrite PW in *. clear - Ts V WO. set (ss := shapes_at d op (last path 0%nat)) in *. clearbody ss. induction Ts as [|s t ss ts (A1 & A2 & A3 & A4 & A5) Ts IH]; constructor; [|exact IH].
  split; [exact A1|]. split; [exact A2|]. split; [exact A3|]. split; [exact A4|]. destruct (geometry d (last path 0%nat)) as [[k g]|]; [|exact I]. exists w. split; [exact WO|]. split; [now apply (V k)|now apply (A5 k)].
Qed.
