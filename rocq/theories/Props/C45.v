(** C45: scaling a glTF document scales everything. *)
From Coq Require Import List ZArith Bool Lia Reals Lra.
From Verif.Model Require Import Num NumR Vec Matrix GltfUtil.
From Verif.Spec Require Import GeomSpec GltfUtilSpec.
From Verif.Proofs Require Import MatrixLemmas GltfUtilProofs GltfUtilAcc.
Import ListNotations.
Local Open Scope list_scope.

(** Every accessor of positions is transformed, exactly once however many primitives share it; accessors of other data stay. *)
Theorem C45_positions : forall (T : Type) (N : Num T) (big : T) m (d d' : tdoc T) a x, apply_transform big m d = Some d' ->
  nth_error (tdAccs d) a = Some x -> ~ offset_acc d a ->
  (position_acc d a -> exists x', nth_error (tdAccs d') a = Some x' /\ paData x' = map (mat_apply m) (paData x)) /\
  (~ position_acc d a -> nth_error (tdAccs d') a = Some x).
Proof.
  intros T N big m d d' a x H E O. split.
  - intros P. destruct (apply_position _ _ _ _ _ _ H P O E) as (x' & A & B & _). eauto.
  - intros P. rewrite (apply_other _ _ _ _ _ H O P). exact E.
Qed.
Print Assumptions C45_positions.

(** [Min] and [Max] of the result are its exact bounds. *)
Theorem C45_bounds : forall (big : R) m (d d' : tdoc R) a x', apply_transform big m d = Some d' -> nth_error (tdAccs d') a = Some x' -> position_acc d a -> ~ offset_acc d a ->
  paData x' <> [] -> (forall v, In v (paData x') -> (- big <= vx v <= big)%R /\ (- big <= vy v <= big)%R /\ (- big <= vz v <= big)%R) ->
  tight (paData x') vx (vx (paMin x')) (vx (paMax x')) /\ tight (paData x') vy (vy (paMin x')) (vy (paMax x')) /\ tight (paData x') vz (vz (paMin x')) (vz (paMax x')).
Proof.
  intros big m d d' a x' H E' P O NE B. destruct (nth_error (tdAccs d) a) as [x|] eqn:E; [|rewrite (apply_at _ _ _ _ _ H), E in E'; discriminate].
  destruct (apply_position _ _ _ _ _ _ H P O E) as (y & Ey & _ & Eb). rewrite E' in Ey. injection Ey as <-.
  pose proof (bounds_tight big _ NE B) as K. rewrite <- Eb in K. exact K.
Qed.
Print Assumptions C45_bounds.

(** Nodes, and inverse bind matrices of unscaled joints, stay as they are; so a scaled mesh is right exactly when its node is at the
    origin of the scene. *)
Theorem C45_exact_partial : forall (big s : R) (d d' : tdoc R), apply_transform big (mat_scale s s s) d = Some d' ->
  forall j m, world (tdNodes d) j m -> world (tdNodes d') j m /\
  forall a x, nth_error (tdAccs d) a = Some x -> position_acc d a -> ~ offset_acc d a -> exists x', nth_error (tdAccs d') a = Some x' /\
  forall k v, nth_error (paData x) k = Some v -> exists v', nth_error (paData x') k = Some v' /\
  (mat_apply m v' = (let w := mat_apply m v in mkV3 (s * vx w) (s * vy w) (s * vz w))%R <-> (s = 1%R \/ place_of m = mkV3 0 0 0)%R).
Proof.
  intros big s d d' H j m W. split; [rewrite (nodes_same _ _ _ _ H); exact W|]. intros a x E P O. destruct (apply_position _ _ _ _ _ _ H P O E) as (x' & A & B & _).
  exists x'. split; [exact A|]. intros k v Hv. eexists. rewrite B, nth_error_map, Hv. split; [reflexivity|]. rewrite <- scale_about.
  replace (mat_apply (mat_scale s s s) v) with (mkV3 (s * vx v) (s * vy v) (s * vz v))%R; [reflexivity|]. unfold mat_apply, mat_scale. mproj. rnum. comps; ring.
Qed.
Print Assumptions C45_exact_partial.
Theorem C45_binds_partial : forall (big : R) m (d d' : tdoc R), apply_transform big m d = Some d' ->
  (forall l b, In l (tdBinds d) -> In b l -> unit_columns b) -> tdBinds d' = tdBinds d.
Proof.
  intros big m d d' H U. destruct (apply_nodes _ _ _ _ H) as (_ & -> & _). rewrite <- (map_id (tdBinds d)) at 2. apply map_ext_in. intros l Hl. rewrite <- (map_id l) at 2. apply map_ext_in. intros b Hb.
  apply bind_same. apply (U l b Hl Hb).
Qed.
Print Assumptions C45_binds_partial.

Theorem C45_total : forall (T : Type) (N : Num T) (big : T) m (d : tdoc T), (forall a, position_acc d a \/ offset_acc d a -> (a < length (tdAccs d))%nat) ->
  exists d', apply_transform big m d = Some d'.
Proof. intros T N. exact apply_total. Qed.
Print Assumptions C45_total.

(** Morph offsets are neither moved nor scaled: whatever the transform, they stay what they were. *)
Theorem C45_offsets_partial : forall (big : R) m (d d' : tdoc R) a x, apply_transform big m d = Some d' -> offset_acc d a -> ~ position_acc d a -> nth_error (tdAccs d) a = Some x ->
  exists x', nth_error (tdAccs d') a = Some x' /\ paData x' = paData x.
Proof.
  intros big m d d' a x H O P E. destruct (apply_offset big m d d' a x H O P E) as (x' & A & B & _). exists x'. split; [exact A|]. rewrite B. unfold scale_mat. rewrite <- (map_id (paData x)) at 2. apply map_ext. intros v. apply apply_id.
Qed.
Print Assumptions C45_offsets_partial.

(** Refuted: node translations, morph offsets and inverse bind matrices are not scaled: [scaleMat] is the identity. *)
Local Open Scope Z_scope.
Definition body : tdoc Z := mkTD [(Some 0%nat, [1%nat]); (Some 0%nat, [])]
  [mkPA [mkV3 1 2 3; mkV3 4 (-5) 6] (mkV3 0 0 0) (mkV3 0 0 0); mkPA [mkV3 0 1 0; mkV3 0 0 0] (mkV3 0 0 0) (mkV3 0 0 0); mkPA [mkV3 0 0 1] (mkV3 0 0 1) (mkV3 0 0 1)]
  [mkJN (mkV3 0 10 0) rot_id (mkV3 1 1 1) [1%nat] false; mkJN (mkV3 0 5 0) rot_id (mkV3 1 1 1) [] true] [[mat_translate 0 (-10) 0]].
Theorem C45_scale_refuted : exists (d d' : tdoc Z), apply_transform 1000 (mat_scale 2 2 2) d = Some d' /\
  (exists n n', nth_error (tdNodes d) 0 = Some n /\ nth_error (tdNodes d') 0 = Some n' /\ vy (jnTrans n) = 10 /\ vy (jnTrans n') = 10) /\
  (offset_acc d 1 /\ ~ position_acc d 1 /\ exists x x', nth_error (tdAccs d) 1 = Some x /\ nth_error (tdAccs d') 1 = Some x' /\ paData x' = paData x /\ nth_error (paData x) 0 = Some (mkV3 0 1 0)) /\
  (exists b b', nth_error (tdBinds d) 0 = Some [b] /\ nth_error (tdBinds d') 0 = Some [b'] /\ m13 b = - 10 /\ m13 b' = - 10).
Proof.
  exists body. eexists. split; [vm_compute; reflexivity|]. split; [eexists _, _; repeat split|]. split; [|eexists _, _; repeat split].
  split; [exists (Some 0%nat, [1%nat]); cbn; auto|]. split; [|eexists _, _; repeat split]. intros (p & [<-|[<-|[]]] & Hp); discriminate.
Qed.
Print Assumptions C45_scale_refuted.

(** An accessor shared by two primitives is doubled once; the third accessor is not touched. *)
Example C45_example : option_map (fun d => (map (@paData Z) (tdAccs d), map (@paMin Z) (tdAccs d), map (@paMax Z) (tdAccs d))) (apply_transform 1000 (mat_scale 2 2 2) body) =
  Some ([[mkV3 2 4 6; mkV3 8 (-10) 12]; [mkV3 0 1 0; mkV3 0 0 0]; [mkV3 0 0 1]],
        [mkV3 2 (-10) 6; mkV3 0 0 0; mkV3 0 0 1], [mkV3 8 4 12; mkV3 0 1 0; mkV3 0 0 1]).
Proof. vm_compute. reflexivity. Qed.
Example C45_example_world : position_acc body 0 /\ ~ offset_acc body 0.
Proof. split; [exists (Some 0%nat, [1%nat]); cbn; auto|]. intros (p & [<-|[<-|[]]] & Hp); cbn in Hp; intuition discriminate. Qed.
