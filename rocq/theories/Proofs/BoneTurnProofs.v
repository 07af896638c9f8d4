(** [BoneTransform] (C83). *)
From Coq Require Import String List ZArith Reals Lra Lia Bool Permutation.
From Verif.Model Require Import Num NumR Vec Matrix Euler Mqo MqoDoc MqoTransform.
From Verif.Spec Require Import GeomSpec BoneSpec TransformSpec.
From Verif.Proofs Require Import MatrixLemmas EulerProofs Mmd2MqoProofs Mmd2MqoFaces BoneProofs BoneTurnSums.
Import ListNotations.
Local Open Scope R_scope.

Lemma turn_about_between pos rot w v : turn_about pos rot w v = between w (turned pos rot v) v.
Proof. unfold turn_about, between, turned. destruct (qapply rot (v3sub v pos)) as [x y z], pos, v. unfold v3add, v3scale; mproj; rnum; comps; ring. Qed.
Lemma between_one a b : between 1 a b = a.
Proof. destruct a, b. unfold between, v3add, v3scale; mproj; rnum; comps; ring. Qed.
Lemma between_zero a b : between 0 a b = b.
Proof. destruct a, b. unfold between, v3add, v3scale; mproj; rnum; comps; ring. Qed.

Definition parts_of (d : mdoc) base := flat_map (fun p => if nmem (fst p) (select_bones (mdBones d) base) then bone_parts (mdObjects d) (mdMorphs d) (snd p) else []) (index_list (mdBones d)).
Lemma turn_inv base rot d d' : bone_transform base rot d = Some d' -> exists b0, nth_error (mdBones d) base = Some b0 /\ forallb (part_ok (mdObjects d)) (parts_of d base) = true /\
  d' = mkMDoc (map (turn_object (bPos b0) rot (parts_of d base)) (index_list (mdObjects d)))
              (map (fun p => if nmem (fst p) (select_bones (mdBones d) base) then set_pos (snd p) (turn_about (bPos b0) rot 1 (bPos (snd p))) else snd p) (index_list (mdBones d)))
              (mdMorphs d)
              (option_map (fun ph => mkPh (map (turn_body (mdBones d) (select_bones (mdBones d) base) (bPos b0) rot) (phBodies ph)) (phJoints ph)) (mdPhysics d)).
Proof.
  unfold bone_transform. fold (parts_of d base). destruct (nth_error (mdBones d) base) as [b0|]; [|discriminate]. destruct (forallb _ (parts_of d base)) eqn:F; [|discriminate]. intros E. injection E as <-. exists b0. auto.
Qed.
Lemma sel_bound {T} (bones : list (bone T)) base : (base < length bones)%nat -> forall j, In j (select_bones bones base) -> (j < length bones)%nat.
Proof.
  intros Hb j Hj. destruct (select_sound bones base) as (_ & _ & S). apply S in Hj. destruct Hj as [|i p (b & pb & E & _) _]; [exact Hb|]. apply nth_error_Some. congruence.
Qed.
Lemma parts_sum d base oi o vi : well_named (mdObjects d) (mdMorphs d) -> (base < length (mdBones d))%nat -> nth_error (mdObjects d) oi = Some o ->
  sumR (map (pv oi vi) (parts_of d base)) = sumR (map (fun j => match nth_error (mdBones d) j with Some b => bone_share (mdObjects d) (mdMorphs d) b o vi | None => 0 end) (select_bones (mdBones d) base)).
Proof.
  intros W Hb Eo. unfold parts_of. rewrite sum_map_flat. rewrite <- (sum_sel (fun b => bone_share (mdObjects d) (mdMorphs d) b o vi)); [|apply (select_sound (mdBones d) base)|apply sel_bound; exact Hb].
  apply sum_ext. intros [j b] _. cbn [fst snd]. destruct (nmem j _); [apply bone_parts_sum; assumption|reflexivity].
Qed.
Lemma turn_vertices base rot d d' b0 oi o : bone_transform base rot d = Some d' -> nth_error (mdBones d) base = Some b0 -> well_named (mdObjects d) (mdMorphs d) -> nth_error (mdObjects d) oi = Some o ->
  exists o', nth_error (mdObjects d') oi = Some o' /\ o' = set_verts o (oVerts o') /\ length (oVerts o') = length (oVerts o) /\
  forall vi v, nth_error (oVerts o) vi = Some v ->
    nth_error (oVerts o') vi = Some (between (sumR (map (fun j => match nth_error (mdBones d) j with Some b => bone_share (mdObjects d) (mdMorphs d) b o vi | None => 0 end) (select_bones (mdBones d) base))) (turned (bPos b0) rot v) v).
Proof.
  intros E Eb W Eo. destruct (turn_inv _ _ _ _ E) as (b & Eb' & _ & ->). rewrite Eb in Eb'. injection Eb' as <-. cbn [mdObjects].
  exists (turn_object (bPos b0) rot (parts_of d base) (oi, o)). split; [rewrite nth_error_map, index_list_nth, Eo; reflexivity|]. split; [reflexivity|]. cbn [turn_object oVerts set_verts fst snd].
  split; [rewrite map_length; unfold index_list; rewrite combine_length, seq_length; lia|]. intros vi v Ev. rewrite nth_error_map, index_list_nth, Ev. cbn [option_map fst snd]. f_equal.
  rewrite <- (parts_sum d base oi o vi W) by (try exact Eo; apply nth_error_Some; congruence). rewrite <- weight_at_sum. destruct (weight_at (parts_of d base) oi vi) as [w|]; [apply turn_about_between|rewrite between_zero; reflexivity].
Qed.
Lemma turn_counts base rot d d' : bone_transform base rot d = Some d' -> length (mdObjects d') = length (mdObjects d) /\ length (mdBones d') = length (mdBones d) /\ mdMorphs d' = mdMorphs d.
Proof.
  intros E. destruct (turn_inv _ _ _ _ E) as (b & _ & _ & ->). cbn [mdObjects mdBones mdMorphs]. unfold index_list. rewrite !map_length, !combine_length, !seq_length. split; [lia|]. split; [lia|reflexivity].
Qed.
Lemma turn_bones base rot d d' b0 : bone_transform base rot d = Some d' -> nth_error (mdBones d) base = Some b0 -> forall j b, nth_error (mdBones d) j = Some b ->
  nth_error (mdBones d') j = Some (set_pos b (if nmem j (select_bones (mdBones d) base) then turned (bPos b0) rot (bPos b) else bPos b)).
Proof.
  intros E Eb j b Ej. destruct (turn_inv _ _ _ _ E) as (b1 & Eb' & _ & ->). rewrite Eb in Eb'. injection Eb' as <-. cbn [mdBones]. rewrite nth_error_map, index_list_nth, Ej. cbn [option_map fst snd].
  destruct (nmem j _); [rewrite turn_about_between, between_one; reflexivity|destruct b; reflexivity].
Qed.
Lemma turn_physics base rot d d' b0 : bone_transform base rot d = Some d' -> nth_error (mdBones d) base = Some b0 ->
  mdPhysics d' = option_map (fun ph => mkPh (map (turn_body (mdBones d) (select_bones (mdBones d) base) (bPos b0) rot) (phBodies ph)) (phJoints ph)) (mdPhysics d).
Proof. intros E Eb. destruct (turn_inv _ _ _ _ E) as (b1 & Eb' & _ & ->). rewrite Eb in Eb'. injection Eb' as <-. reflexivity. Qed.
Lemma turn_shape_place pos rot s : psType (turn_shape pos rot s) = psType s /\ psSize (turn_shape pos rot s) = psSize s /\ psPos (turn_shape pos rot s) = turned pos rot (psPos s).
Proof. repeat split. cbn [psPos turn_shape]. rewrite turn_about_between. apply between_one. Qed.
(** When it works. *)
Lemma turn_total base rot d : well_named (mdObjects d) (mdMorphs d) ->
  ((exists d', bone_transform base rot d = Some d') <->
   (base < length (mdBones d))%nat /\ forall j b bw o vw, In j (select_bones (mdBones d) base) -> nth_error (mdBones d) j = Some b -> In bw (bWeights b) -> In vw (snd bw) -> In o (mdObjects d) ->
     is_meant (mdObjects d) (mdMorphs d) (fst bw) o -> (0 <= get_vertex_index_by_id o (fst vw) < Z.of_nat (length (oVerts o)))%Z).
Proof.
  intros W. pose proof W as (NU & _). split.
  - intros [d' E]. destruct (turn_inv _ _ _ _ E) as (b0 & Eb & F & _). split; [apply nth_error_Some; congruence|]. intros j b bw o vw Hj Ej Hw Hv Ho Hm. apply (In_nth_error _ _) in Ho as [oi Eo].
    rewrite forallb_forall in F. assert (P : part_ok (mdObjects d) (oi, get_vertex_index_by_id o (fst vw), snd vw / 100) = true).
    { apply F. unfold parts_of. apply in_flat_map. exists (j, b). split; [apply (nth_error_In _ j); rewrite index_list_nth, Ej; reflexivity|]. cbn [fst snd]. rewrite (proj2 (nmem_in j _) Hj).
      unfold bone_parts. apply in_flat_map. exists bw. split; [exact Hw|]. apply in_flat_map. exists (oUID o). split; [apply (ids_in _ _ _ o W (nth_error_In _ _ Eo)); exact Hm|].
      rewrite (proj2 (index_uid _ (oUID o) oi o NU Eo) eq_refl), Eo. apply in_map_iff. exists vw. auto. }
    unfold part_ok in P. cbn [fst snd] in P. rewrite Eo in P. destruct (zidx _ _) eqn:Z; [|discriminate]. apply zidx_bound in Z. exact Z.
  - intros [Hb H]. destruct (nth_error (mdBones d) base) as [b0|] eqn:Eb; [|apply nth_error_None in Eb; lia]. unfold bone_transform. rewrite Eb. fold (parts_of d base).
    assert (F : forallb (part_ok (mdObjects d)) (parts_of d base) = true); [|rewrite F; eexists; reflexivity].
    apply forallb_forall. intros p Hp. unfold parts_of in Hp. apply in_flat_map in Hp as ([j b] & Hi & Hp). cbn [fst snd] in Hp. destruct (nmem j _) eqn:Nj; [|destruct Hp]. apply nmem_in in Nj.
    apply In_nth_error in Hi as [k Hk]. rewrite index_list_nth in Hk. destruct (nth_error (mdBones d) k) as [b'|] eqn:Ek; [|discriminate]. injection Hk as -> ->.
    unfold bone_parts in Hp. apply in_flat_map in Hp as (bw & Hw & Hp). apply in_flat_map in Hp as (id & Hid & Hp). destruct (index_of_uid _ id) as [oi|] eqn:Ei; [|destruct Hp]. destruct (nth_error (mdObjects d) oi) as [o|] eqn:Eo; [|destruct Hp].
    apply in_map_iff in Hp as (vw & <- & Hv). apply (index_uid _ id oi o NU Eo) in Ei. subst id. unfold part_ok. cbn [fst snd]. rewrite Eo.
    specialize (H j b bw o vw Nj Ek Hw Hv (nth_error_In _ _ Eo)). apply (proj1 (ids_in _ _ _ o W (nth_error_In _ _ Eo))) in Hid. specialize (H Hid). destruct (zidx _ _) eqn:Z; [reflexivity|]. apply zidx_None in Z. contradiction.
Qed.

(** The axes of a shape turn with it, away from the poles of the angles. *)
Lemma turn_shape_axis pos rot s v : unit_quat rot ->
  (let m := mid_entry XYZ (mat_rot (qmul rot (euler_to_quat (mkE (psRot s) XYZ)))) in Rabs m < 1 - euler_eps \/ Rabs m = 1) ->
  shape_axis (turn_shape pos rot s) v = qapply rot (shape_axis s v).
Proof.
  intros U H. unfold shape_axis. cbn [psRot turn_shape]. rewrite <- (euler_of_quat_eta _ XYZ).
  destruct (euler_round_trip_both (qmul rot (euler_to_quat (mkE (psRot s) XYZ))) XYZ v) as [_ E]; [apply qmul_unit; [exact U|apply euler_to_quat_unit]|exact H|]. rewrite E. apply qapply_mul.
Qed.
