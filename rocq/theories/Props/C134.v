(** C134: a PMX model saved as PMX again has the same faces. *)
From Coq Require Import String List ZArith Bool Lia Permutation Reals.
From Verif.Model Require Import Num NumR Vec Matrix Mqo MqoDoc MqoTransform Mmd2Mqo Mqo2Mmd.
From Verif Require Import Spec.MmdConvSpec Spec.Mqo2MmdSpec Spec.DrawnSpec Spec.FbxPmxSpec Spec.PmxPmxSpec Proofs.TransformProofs Proofs.PmxPmx.
From Verif Require Props.C126 Props.C33.
Import ListNotations.
Local Open Scope Z_scope.

(** Full statement: the faces of the second model are those of the first one. Proved for models in which no morph has the name of a mesh object (see below).
    Each face is there once, with its material, its corners in the same order, at the mirrored, moved, scaled and mirrored place, with their texture coordinates.
    The materials are the same, with those for material morphs after them. *)
Theorem C134_faces_partial : forall (T : Type) (N : Num T) (hundred facet : T) (shuffle : vmap -> vmap), (forall m, Permutation (shuffle m) m) ->
  forall (p : pmodel T) os bw sets, convert hundred facet shuffle p = Some (os, bw, sets) -> covers p -> Forall (fun f => length f = 3%nat) (pFaces p) ->
  (forall m, In m (pMorphs p) -> ~ mesh_name (phName m)) ->
  forall (move turn : vec3 T -> vec3 T) (dd : document T), Forall2 (moved_object move turn) os (dObjects dd) ->
  forall (scale centi : T) bones p' extra, map (@mtName T) (dMaterials dd) = map pmName (pMats p) ++ extra -> to_mmd scale centi dd bones sets = Some p' ->
  length (face_owners (pMats p')) = length (pFaces p') /\ map pmName (pMats p') = map pmName (pMats p) ++ extra /\
  exists l, Permutation l (seq 0 (length (pFaces p))) /\ Forall2 (same_face scale move p p') l (combine (face_owners (pMats p')) (pFaces p')).
Proof. exact (fun T N => @pmx_pmx_faces T N). Qed.
Print Assumptions C134_faces_partial.
Theorem C134_count_partial : forall (T : Type) (N : Num T) (hundred facet : T) (shuffle : vmap -> vmap), (forall m, Permutation (shuffle m) m) ->
  forall (p : pmodel T) os bw sets, convert hundred facet shuffle p = Some (os, bw, sets) -> covers p -> Forall (fun f => length f = 3%nat) (pFaces p) ->
  (forall m, In m (pMorphs p) -> ~ mesh_name (phName m)) ->
  forall (move turn : vec3 T -> vec3 T) (dd : document T), Forall2 (moved_object move turn) os (dObjects dd) ->
  forall (scale centi : T) bones p' extra, map (@mtName T) (dMaterials dd) = map pmName (pMats p) ++ extra -> to_mmd scale centi dd bones sets = Some p' ->
  length (pFaces p') = length (pFaces p).
Proof. exact (fun T N => @pmx_pmx_count T N). Qed.
Print Assumptions C134_count_partial.
(** Every model that is read gives a model. *)
Theorem C134_total : forall (T : Type) (N : Num T) (hundred facet : T) (shuffle : vmap -> vmap),
  forall (p : pmodel T) os bw sets, convert hundred facet shuffle p = Some (os, bw, sets) ->
  forall (move turn : vec3 T -> vec3 T) (dd : document T), Forall2 (moved_object move turn) os (dObjects dd) ->
  forall (scale centi : T) bones, to_mmd scale centi dd bones sets <> None.
Proof. exact (fun T N => @pmx_pmx_total T N). Qed.
Print Assumptions C134_total.

(** If the command enlarges by the inverse of the scale of PMX models, every corner is where it was. *)
Theorem C134_place_partial : forall (hundred facet : R) (shuffle : vmap -> vmap), (forall m, Permutation (shuffle m) m) ->
  forall (p : pmodel R) os bw sets, convert hundred facet shuffle p = Some (os, bw, sets) -> covers p -> Forall (fun f => length f = 3%nat) (pFaces p) ->
  (forall m, In m (pMorphs p) -> ~ mesh_name (phName m)) ->
  forall k dm dm' mats (scale centi : R) p' extra, mdObjects dm = os -> transform_doc (mat_scale k k k) dm = Some dm' -> (k * scale = 1)%R ->
  map (@mtName R) mats = map pmName (pMats p) ++ extra -> to_mmd scale centi (mkDocument mats (mdObjects dm')) (mdBones dm') sets = Some p' ->
  exists l, Permutation l (seq 0 (length (pFaces p))) /\
    Forall2 (fun fi t => owner (pMats p) 0 fi = Some (Z.of_nat (fst t)) /\
      Forall2 (fun id id' => exists v v', zidx (pVerts p) id = Some v /\ zidx (pVerts p') id' = Some v' /\ pvPos v' = pvPos v) (nth fi (pFaces p) []) (snd t))
      l (combine (face_owners (pMats p')) (pFaces p')).
Proof.
  intros hundred facet shuffle SP p os bw sets EC CV TH NM k dm dm' mats scale centi p' extra EO ET KS MN EP.
  destruct (TransformProofs.transform_doc_objects _ dm dm' ET) as (L & _ & _ & _ & X).
  destruct (C134_faces_partial R RNum hundred facet shuffle SP p os bw sets EC CV TH NM (mat_apply (mat_scale k k k)) (mat_apply (normal_transform (mat_scale k k k))) (mkDocument mats (mdObjects dm'))) with (3 := EP) (extra := extra) as (_ & _ & l & P & F); [|exact MN|].
  - rewrite <- EO. cbn [dObjects]. clear - L X. revert L X. generalize (mdObjects dm) as a, (mdObjects dm') as b. induction a as [|o a IH]; intros [|o' b] L X; try discriminate; constructor.
    + destruct (X 0%nat o eq_refl) as (x & [= <-] & Hx). apply C126.transformed. exact Hx.
    + apply IH; [cbn in L; lia|]. intros i y Hy. exact (X (S i) y Hy).
  - exists l. split; [exact P|]. clear - F KS. induction F as [|fi t l ts (A & B) F IH]; constructor; [|exact IH]. split; [exact A|].
    clear - B KS. induction B as [|id id' r r' (v & v' & E1 & E2 & E3 & _) B IH]; constructor; [|exact IH]. exists v, v'. split; [exact E1|]. split; [exact E2|]. rewrite E3.
    destruct (pvPos v) as [x y z]. unfold scaled, flip_z, mat_apply, mat_scale. cbn [vx vy vz nmul nadd nopp none nzero RNum m0 m1 m2 m3 m4 m5 m6 m7 m8 m9 m10 m11 m12 m13 m14 m15].
    assert (G : forall a a' b b' c c' : R, a = a' -> b = b' -> c = c' -> mkV3 a b c = mkV3 a' b' c') by (intros; congruence).
    apply G.
    + replace x with (x * (k * scale))%R at 2 by (rewrite KS; ring). ring.
    + replace y with (y * (k * scale))%R at 2 by (rewrite KS; ring). ring.
    + replace z with (z * (k * scale))%R at 2 by (rewrite KS; ring). ring.
Qed.
Print Assumptions C134_place_partial.

(** The model of C33, doubled. *)
Definition mat (n : string) : material Z := mkMat n 0 (mkV4 1 1 1 1) 0 0 0 0 0 "" "" "" None false 0 None.
Definition C134_run (p : pmodel Z) : option (pmodel Z) :=
  match convert 100 60 (@rev _) p with Some (os, bw, sets) => to_mmd 2 1 (mkDocument (map (fun m => mat (pmName m)) (pMats p)) os) [] sets | None => None end.
Definition C134_places (p : pmodel Z) : list (nat * list (option (vec3 Z * vec2 Z))) :=
  map (fun t => (fst t, map (fun id => option_map (fun v => (pvPos v, pvUV v)) (zidx (pVerts p) id)) (snd t))) (combine (face_owners (pMats p)) (pFaces p)).
Example C134_example : covers C33.ex_model /\ Forall (fun f => length f = 3%nat) (pFaces C33.ex_model) /\ (forall m, In m (pMorphs C33.ex_model) -> ~ mesh_name (phName m)) /\
  C134_places C33.ex_model =
    [(0%nat, [Some (mkV3 0 0 1, mkV2 0 0); Some (mkV3 4 0 2, mkV2 4 0); Some (mkV3 0 4 3, mkV2 0 4)]);
     (1%nat, [Some (mkV3 9 0 5, mkV2 9 0); Some (mkV3 9 9 6, mkV2 9 9); Some (mkV3 5 9 7, mkV2 5 9)]);
     (1%nat, [Some (mkV3 0 4 3, mkV2 0 4); Some (mkV3 4 0 2, mkV2 4 0); Some (mkV3 4 4 4, mkV2 4 4)])] /\
  option_map C134_places (C134_run C33.ex_model) = Some
    [(0%nat, [Some (mkV3 0 0 2, mkV2 0 0); Some (mkV3 8 0 4, mkV2 4 0); Some (mkV3 0 8 6, mkV2 0 4)]);
     (1%nat, [Some (mkV3 0 8 6, mkV2 0 4); Some (mkV3 8 0 4, mkV2 4 0); Some (mkV3 8 8 8, mkV2 4 4)]);
     (1%nat, [Some (mkV3 18 0 10, mkV2 9 0); Some (mkV3 18 18 12, mkV2 9 9); Some (mkV3 10 18 14, mkV2 5 9)])].
Proof.
  split; [apply C33.C33_example|]. split; [repeat constructor|]. split; [|split; vm_compute; reflexivity].
  intros m [<-|[]] (r & [E|E]); discriminate E.
Qed.

(** Refuted: a morph with the name of a mesh object takes the faces of that object out of the model. *)
Definition C134_full : Prop := forall (p p' : pmodel Z), proper p -> C134_run p = Some p' -> length (pFaces p') = length (pFaces p).
Theorem C134_name_refuted : ~ C134_full.
Proof.
  intro H. pose (p := mkPModel (pVerts C33.ex_model) (pFaces C33.ex_model) (pMats C33.ex_model) [mkPMorph "M_skin" [(5, mkV3 1 0 2)] []] 2).
  destruct (C134_run p) as [p'|] eqn:E; [|vm_compute in E; discriminate E]. specialize (H p p').
  assert (Pp : proper p) by (repeat split; repeat constructor; cbn; lia). specialize (H Pp E). vm_compute in E. injection E as <-. discriminate H.
Qed.
Print Assumptions C134_name_refuted.
(** Refuted: vertices that no face uses are lost, and the others change their numbers. *)
Theorem C134_vertices_refuted : exists p p' : pmodel Z, proper p /\ C134_run p = Some p' /\ length (pVerts p) = 4%nat /\ length (pVerts p') = 3%nat /\ pFaces p = [[1; 2; 3]] /\ pFaces p' = [[0; 1; 2]].
Proof.
  exists (mkPModel [C33.pv 0 0 1 [] []; C33.pv 4 0 2 [] []; C33.pv 0 4 3 [] []; C33.pv 4 4 4 [] []] [[1; 2; 3]] [mkPMat "skin" 3] [] 0). eexists.
  split; [repeat split; repeat constructor; cbn; lia|]. split; [vm_compute; reflexivity|]. repeat split.
Qed.
Print Assumptions C134_vertices_refuted.
