(** C83: turning a bone turns what hangs on it. *)
From Coq Require Import String List ZArith Reals Lra Lia Bool.
From Verif.Model Require Import Num NumR Vec Matrix Euler Mqo MqoDoc MqoTransform.
From Verif.Spec Require Import GeomSpec BoneSpec TransformSpec.
From Verif.Proofs Require Import MatrixLemmas EulerProofs BoneProofs GltfGraph BoneTurnSums BoneTurnProofs.
Import ListNotations.
Local Open Scope R_scope.

(** Ids are unique and parents are listed before their children (C15: it is wrong for other lists). *)
Definition parents_first (bones : list (bone R)) (base : nat) : Prop :=
  NoDup (map (@bID R) bones) /\ forall i p, child_of bones i p -> (p < i)%nat \/ p = base.
(** The bone and all below it turn about its place; other bones stay; names, parents and weights stay. *)
Theorem C83_bones_partial : forall base rot d d' b0 j b, parents_first (mdBones d) base -> bone_transform base rot d = Some d' ->
  nth_error (mdBones d) base = Some b0 -> nth_error (mdBones d) j = Some b -> exists b', nth_error (mdBones d') j = Some b' /\
  (descends (mdBones d) base j -> moved_bone (turned (bPos b0) rot) b b') /\ (~ descends (mdBones d) base j -> b' = b).
Proof.
  intros base rot d d' b0 j b [N P] E Eb Ej. eexists. split; [apply (turn_bones base rot d d' b0 E Eb j b Ej)|]. destruct (select_sound (mdBones d) base) as (_ & _ & S). split; intros H.
  - rewrite (proj2 (nmem_in j _) (select_complete (mdBones d) base N P j H)). repeat split.
  - destruct (nmem j _) eqn:M; [exfalso; apply H, S, nmem_in; exact M|]. destruct b; reflexivity.
Qed.
Print Assumptions C83_bones_partial.
Theorem C83_counts : forall base rot d d', bone_transform base rot d = Some d' ->
  length (mdObjects d') = length (mdObjects d) /\ length (mdBones d') = length (mdBones d) /\ mdMorphs d' = mdMorphs d.
Proof. exact turn_counts. Qed.
Print Assumptions C83_counts.
(** A vertex moves by the sum of its weights at these bones, in the object they are given for and in the targets of its morphs; objects keep everything else. *)
Theorem C83_vertices_partial : forall base rot d d' b0 oi o, parents_first (mdBones d) base -> well_named (mdObjects d) (mdMorphs d) ->
  bone_transform base rot d = Some d' -> nth_error (mdBones d) base = Some b0 -> nth_error (mdObjects d) oi = Some o ->
  exists sel o', NoDup sel /\ (forall j, In j sel <-> descends (mdBones d) base j) /\
  nth_error (mdObjects d') oi = Some o' /\ o' = set_verts o (oVerts o') /\ length (oVerts o') = length (oVerts o) /\
  forall vi v, nth_error (oVerts o) vi = Some v ->
    let w := sumR (map (fun j => match nth_error (mdBones d) j with Some b => bone_share (mdObjects d) (mdMorphs d) b o vi | None => 0 end) sel) in
    nth_error (oVerts o') vi = Some (between w (turned (bPos b0) rot v) v).
Proof.
  intros base rot d d' b0 oi o [N P] W E Eb Eo. destruct (select_sound (mdBones d) base) as (S1 & _ & S2). destruct (turn_vertices base rot d d' b0 oi o E Eb W Eo) as (o' & A & B & C & D).
  exists (select_bones (mdBones d) base), o'. split; [exact S1|]. split; [intros j; split; [apply S2|apply select_complete; assumption]|]. split; [exact A|]. split; [exact B|]. split; [exact C|exact D].
Qed.
Print Assumptions C83_vertices_partial.
(** In particular what hangs on these bones alone turns rigidly, and what does not hang on them stays. *)
Theorem C83_rigid : forall pos rot v, between 1 (turned pos rot v) v = turned pos rot v /\ between 0 (turned pos rot v) v = v /\
  forall u, unit_quat rot -> v3lensqr (v3sub (turned pos rot v) (turned pos rot u)) = v3lensqr (v3sub v u).
Proof.
  intros pos rot v. split; [apply between_one|]. split; [apply between_zero|]. intros u U. unfold turned.
  assert (L : v3sub (v3add pos (qapply rot (v3sub v pos))) (v3add pos (qapply rot (v3sub u pos))) = qapply rot (v3sub v u)).
  { destruct rot, pos, v, u. unfold qapply, v3add, v3sub; mproj; rnum; comps; ring. }
  rewrite L. exact (qapply_dot rot (v3sub v u) (v3sub v u) U).
Qed.
Print Assumptions C83_rigid.
(** Colliders of these bones turn with them, position and axes; other bodies and all joints stay. *)
Theorem C83_bodies_partial : forall base rot d d' b0 ph, parents_first (mdBones d) base -> bone_transform base rot d = Some d' -> nth_error (mdBones d) base = Some b0 -> mdPhysics d = Some ph ->
  exists ph', mdPhysics d' = Some ph' /\ phJoints ph' = phJoints ph /\ Forall2 (fun b b' => pbName b' = pbName b /\ pbBone b' = pbBone b /\
    ((exists j x, pbBone b <> 0%Z /\ nth_error (mdBones d) j = Some x /\ bID x = pbBone b /\ descends (mdBones d) base j) ->
       Forall2 (fun s s' => psType s' = psType s /\ psSize s' = psSize s /\ psPos s' = turned (bPos b0) rot (psPos s) /\
         (unit_quat rot -> (let m := mid_entry XYZ (mat_rot (qmul rot (euler_to_quat (mkE (psRot s) XYZ)))) in Rabs m < 1 - euler_eps \/ Rabs m = 1) ->
          forall v, shape_axis s' v = qapply rot (shape_axis s v))) (pbShapes b) (pbShapes b')) /\
    (~ (exists j x, pbBone b <> 0%Z /\ nth_error (mdBones d) j = Some x /\ bID x = pbBone b /\ descends (mdBones d) base j) -> b' = b)) (phBodies ph) (phBodies ph').
Proof.
  intros base rot d d' b0 ph [N P] E Eb Ep. eexists. split; [rewrite (turn_physics base rot d d' b0 E Eb), Ep; reflexivity|]. split; [reflexivity|]. cbn [phBodies].
  assert (Q : forall b, negb (pbBone b =? 0)%Z && match bone_by_id (mdBones d) (pbBone b) with Some i => nmem i (select_bones (mdBones d) base) | None => false end = true <->
    exists j x, pbBone b <> 0%Z /\ nth_error (mdBones d) j = Some x /\ bID x = pbBone b /\ descends (mdBones d) base j).
  { intros b. rewrite andb_true_iff, negb_true_iff, Z.eqb_neq. destruct (select_sound (mdBones d) base) as (_ & _ & S). split.
    - intros [H0 H]. destruct (bone_by_id (mdBones d) (pbBone b)) as [i|] eqn:Ei; [|discriminate]. apply bone_by_id_Some in Ei as (x & A & B). apply nmem_in, S in H. exists i, x. auto.
    - intros (j & x & H0 & A & B & D). split; [exact H0|]. rewrite <- B. rewrite (bone_by_id_nth (mdBones d) j x N A). apply nmem_in. apply select_complete; assumption. }
  induction (phBodies ph) as [|b l IH]; cbn [map]; constructor; [|exact IH]. specialize (Q b). unfold turn_body. destruct (_ && _) eqn:T.
  - cbn [pbName pbBone pbShapes]. split; [reflexivity|]. split; [reflexivity|]. split; [intros _|intros H; exfalso; apply H, Q; reflexivity].
    induction (pbShapes b) as [|s r IHs]; cbn [map]; constructor; [|exact IHs]. destruct (turn_shape_place (bPos b0) rot s) as (A & B & C). split; [exact A|]. split; [exact B|]. split; [exact C|].
    intros U H v. apply turn_shape_axis; assumption.
  - split; [reflexivity|]. split; [reflexivity|]. split; [intros H; apply Q in H; discriminate|reflexivity].
Qed.
Print Assumptions C83_bodies_partial.
(** It stops only for a weight of a vertex that does not exist. *)
Theorem C83_total : forall base rot d, well_named (mdObjects d) (mdMorphs d) ->
  ((exists d', bone_transform base rot d = Some d') <->
   (base < length (mdBones d))%nat /\ forall j b bw o vw, In j (select_bones (mdBones d) base) -> nth_error (mdBones d) j = Some b -> In bw (bWeights b) -> In vw (snd bw) -> In o (mdObjects d) ->
     is_meant (mdObjects d) (mdMorphs d) (fst bw) o -> (0 <= get_vertex_index_by_id o (fst vw) < Z.of_nat (length (oVerts o)))%Z).
Proof. exact turn_total. Qed.
Print Assumptions C83_total.

Definition obj (uid : Z) (name : string) (vs : list (vec3 R)) : object R := mkObj uid name vs [] true false 0 false 1 0 0 0 0 0 None None None None [] None.
Definition about_z : vec4 R := mkV4 0 0 1 0. (* a half turn *)
(** Refuted: a morph target that has weights of its own is counted twice and is thrown beyond its place: (1,0,0) turned by a half turn about the origin. *)
Definition twice : mdoc := mkMDoc [obj 1 "face" [mkV3 1 0 0]; obj 2 "smile" [mkV3 1 0 0]] [mkBone 1 "head" 0 (mkV3 0 0 0) [(1%Z, [(1%Z, 100)]); (2%Z, [(1%Z, 100)])]] [mkTL "face" ["smile"%string]] None.
Theorem C83_twice_refuted : exists d', bone_transform 0 about_z twice = Some d' /\ map (@oVerts R) (mdObjects d') = [[mkV3 (-1) 0 0]; [mkV3 (-3) 0 0]] /\ turned (mkV3 0 0 0) about_z (mkV3 1 0 0) = mkV3 (-1) 0 0.
Proof.
  assert (T : turned (mkV3 0 0 0) about_z (mkV3 1 0 0) = mkV3 (-1) 0 0) by (unfold turned, about_z, qapply, v3add, v3sub; mproj; rnum; comps; ring).
  assert (B : forall w, turn_about (mkV3 0 0 0) about_z w (mkV3 1 0 0) = mkV3 (1 - 2 * w) 0 0) by (intros w; rewrite turn_about_between, T; unfold between, v3add, v3scale; mproj; rnum; comps; ring).
  exists (mkMDoc [obj 1 "face" [turn_about (mkV3 0 0 0) about_z (0 + 100 / 100) (mkV3 1 0 0)]; obj 2 "smile" [turn_about (mkV3 0 0 0) about_z (0 + 100 / 100 + 100 / 100) (mkV3 1 0 0)]]
    [mkBone 1 "head" 0 (turn_about (mkV3 0 0 0) about_z 1 (mkV3 0 0 0)) [(1%Z, [(1%Z, 100)]); (2%Z, [(1%Z, 100)])]] [mkTL "face" ["smile"%string]] None).
  split; [reflexivity|]. split; [|exact T]. cbn [mdObjects map obj oVerts]. rewrite !B. assert (E : 100 / 100 = 1) by field. rewrite E.
  replace (1 - 2 * (0 + 1)) with (-1) by ring. replace (1 - 2 * (0 + 1 + 1)) with (-3) by ring. reflexivity.
Qed.
Print Assumptions C83_twice_refuted.
(** Refuted: objects without numbers, which the weights name by their position (as FixObjectID and PreSerialize do), are left behind. *)
Definition unnumbered : mdoc := mkMDoc [obj 0 "body" [mkV3 1 0 0]] [mkBone 1 "root" 0 (mkV3 0 0 0) [(1%Z, [(1%Z, 100)])]; mkBone 2 "tip" 1 (mkV3 1 0 0) []] [] None.
Theorem C83_unnumbered_refuted : exists d', bone_transform 0 about_z unnumbered = Some d' /\ map (@oUID R) (fix_ids 0 (mdObjects unnumbered)) = [1%Z] /\
  map (@bPos R) (mdBones d') = [mkV3 0 0 0; mkV3 (-1) 0 0] /\ map (@oVerts R) (mdObjects d') = [[mkV3 1 0 0]].
Proof.
  exists (mkMDoc [obj 0 "body" [mkV3 1 0 0]] [mkBone 1 "root" 0 (turn_about (mkV3 0 0 0) about_z 1 (mkV3 0 0 0)) [(1%Z, [(1%Z, 100)])]; mkBone 2 "tip" 1 (turn_about (mkV3 0 0 0) about_z 1 (mkV3 1 0 0)) []] [] None).
  split; [reflexivity|]. split; [reflexivity|]. split; [|reflexivity]. cbn [mdBones map bPos]. rewrite !turn_about_between, !between_one.
  assert (T1 : turned (mkV3 0 0 0) about_z (mkV3 1 0 0) = mkV3 (-1) 0 0) by (unfold turned, about_z, qapply, v3add, v3sub; mproj; rnum; comps; ring).
  assert (T2 : turned (mkV3 0 0 0) about_z (mkV3 0 0 0) = mkV3 0 0 0) by (unfold turned, about_z, qapply, v3add, v3sub; mproj; rnum; comps; ring).
  rewrite T1, T2. reflexivity.
Qed.
Print Assumptions C83_unnumbered_refuted.

(** An arm of two bones with a vertex between them: the forearm takes its part. *)
Definition arm : mdoc := mkMDoc [obj 1 "skin" [mkV3 1 0 0; mkV3 2 0 0]] [mkBone 1 "upper" 0 (mkV3 0 0 0) [(1%Z, [(1%Z, 25)])]; mkBone 2 "lower" 1 (mkV3 1 0 0) [(1%Z, [(1%Z, 75); (2%Z, 100)])]] []
  (Some (mkPh [mkPB "hand" [mkPS "SPHERE" (mkV3 1 1 1) (mkV3 2 0 0) (mkV3 0 0 0)] 2] [])).
Example C83_example : parents_first (mdBones arm) 1 /\ well_named (mdObjects arm) (mdMorphs arm) /\ exists d', bone_transform 1 about_z arm = Some d' /\
  nth_error (mdObjects d') 0 = Some (obj 1 "skin" [turn_about (mkV3 1 0 0) about_z (0 + 75 / 100) (mkV3 1 0 0); turn_about (mkV3 1 0 0) about_z (0 + 100 / 100) (mkV3 2 0 0)]).
Proof.
  split; [|split].
  - split; [repeat constructor; cbn; lia|]. intros i p (b & pb & Ei & Ep & L & E). left. destruct i as [|[|i]]; [injection Ei as <-; cbn in L; lia| |destruct i; discriminate]. injection Ei as <-.
    destruct p as [|[|p]]; [lia|injection Ep as <-; discriminate E|destruct p; discriminate].
  - split; [repeat constructor; cbn; tauto|]. split; [repeat constructor; cbn; tauto|]. split; [constructor|]. intros m t [].
  - eexists. split; [reflexivity|reflexivity].
Qed.
