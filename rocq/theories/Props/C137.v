(** C137: the bones of a PMX model that is saved as PMX again. *)
From Coq Require Import String List ZArith Bool Lia Reals.
From Verif.Model Require Import Num NumR Vec Matrix Mqo MqoDoc MqoTransform Mmd2Mqo Mqo2Mmd.
From Verif Require Import Spec.MmdConvSpec Spec.Mqo2MmdSpec Spec.PmxBonesSpec Proofs.PmxBones.
Import ListNotations.
Local Open Scope Z_scope.

(** Full statement: the second model has the bones of the first, with name, place, parent, tail and inherited rotation. Proved without tail and inherited rotation:
    bone by bone the same name and place, hanging on its parent or on the known bone whose rotation it takes. *)
Theorem C137_bones_partial : forall (T : Type) (N : Num T) known (thr : T) (bs : list (pbone T)) out, from_mmd_bones known thr bs = Some out -> parents_in bs ->
  forall (move : vec3 T -> vec3 T) (bones : list (bone T)) (scale : T), Forall2 (moved_bone move) out bones ->
  Forall2 (fun b b' => pbName b' = pbName b /\ pbPos b' = scaled scale (move (flip_z (pbPos b))) /\ hangs_on known thr bs b (pbParent b') /\ pbInherit b' = None) bs (to_mmd_bones scale bones).
Proof. exact (fun T N => @pmx_pmx_bones T N). Qed.
Print Assumptions C137_bones_partial.
(** Every tail is the last child of the bone, or none. *)
Theorem C137_tails_partial : forall (T : Type) (N : Num T) known (thr : T) (bs : list (pbone T)) out, from_mmd_bones known thr bs = Some out ->
  forall (move : vec3 T -> vec3 T) (bones : list (bone T)) (scale : T), Forall2 (moved_bone move) out bones ->
  forall k b', nth_error (to_mmd_bones scale bones) k = Some b' -> tail_is_child (to_mmd_bones scale bones) k (pbTail b').
Proof. exact (fun T N => @pmx_pmx_tails T N). Qed.
Print Assumptions C137_tails_partial.
(** If the command enlarges by the inverse of the scale of PMX models, the bones are where they were. *)
Theorem C137_exact : forall (k scale : R) (p : vec3 R), (k * scale = 1)%R -> scaled scale (mat_apply (mat_scale k k k) (flip_z p)) = p.
Proof.
  intros k scale [x y z] KS. unfold scaled, mat_apply, mat_scale, flip_z. cbn [vx vy vz nmul nadd nopp none nzero RNum m0 m1 m2 m3 m4 m5 m6 m7 m8 m9 m10 m11 m12 m13 m14 m15].
  assert (E : forall a a' b b' c c' : R, a = a' -> b = b' -> c = c' -> mkV3 a b c = mkV3 a' b' c') by (intros; congruence). apply E.
  - transitivity (x * (k * scale))%R; [ring|rewrite KS; ring].
  - transitivity (y * (k * scale))%R; [ring|rewrite KS; ring].
  - transitivity (z * (k * scale))%R; [ring|rewrite KS; ring].
Qed.
Print Assumptions C137_exact.
(** The step of the command in between, a transformation, moves bones. *)
Theorem C137_transformed : forall (m : mat4 R) (bones : list (bone R)), Forall2 (moved_bone (mat_apply m)) bones (map (transform_bone m) bones).
Proof. intros m bones. induction bones as [|b bones IH]; constructor; [destruct b; repeat split|exact IH]. Qed.
Print Assumptions C137_transformed.

(** A body with arm, head and hand, and a sleeve that takes the rotation of the arm. *)
Definition C137_model : list (pbone Z) :=
  [mkPB "body" (mkV3 0 1 2) (-1) 2 None; mkPB "arm" (mkV3 3 4 5) 0 3 None; mkPB "head" (mkV3 0 9 1) 0 (-1) None;
   mkPB "hand" (mkV3 6 4 5) 1 (-1) None; mkPB "sleeve" (mkV3 4 4 5) 0 (-1) (Some (1, 7))].
Definition C137_move (v : vec3 Z) : vec3 Z := mkV3 (vx v * 2) (vy v * 2) (vz v * 2).
Definition C137_moved (bs : list (bone Z)) : list (bone Z) := map (fun b => mkBone (bID b) (bName b) (bParent b) (C137_move (bPos b)) (bWeights b)) bs.
Definition C137_run (bs : list (pbone Z)) : option (list (pbone Z)) := option_map (fun out => to_mmd_bones 3 (C137_moved out)) (from_mmd_bones ["arm"%string] 5 bs).
Lemma C137_moved_ok bs : Forall2 (moved_bone C137_move) bs (C137_moved bs).
Proof. unfold C137_moved. induction bs as [|b bs IH]; constructor; [repeat split|exact IH]. Qed.
Example C137_example : parents_in C137_model /\ takes ["arm"%string] 5 C137_model (mkPB "sleeve" (mkV3 4 4 5) 0 (-1) (Some (1, 7))) 1 /\
  option_map (map (fun b => (pbName b, pbPos b, pbParent b, pbTail b))) (C137_run C137_model) =
  Some [("body"%string, mkV3 0 6 12, -1, 2); ("arm"%string, mkV3 18 24 30, 0, 4); ("head"%string, mkV3 0 54 6, 0, -1);
        ("hand"%string, mkV3 36 24 30, 1, -1); ("sleeve"%string, mkV3 24 24 30, 1, -1)].
Proof.
  split; [repeat apply Forall_cons; try apply Forall_nil; cbn; lia|]. split; [|vm_compute; reflexivity].
  exists 7, (mkPB "arm" (mkV3 3 4 5) 0 3 None). repeat split. left. reflexivity.
Qed.

(** Tails: another child takes the place of the hand. *)
Definition C137_tails_full : Prop := forall bs bs', parents_in bs -> C137_run bs = Some bs' -> map pbTail bs' = map (@pbTail Z) bs.
Theorem C137_tail_refuted : ~ C137_tails_full.
Proof.
  intros H. destruct (C137_run C137_model) as [bs'|] eqn:E; [|vm_compute in E; discriminate E]. specialize (H C137_model bs' (proj1 C137_example) E). vm_compute in E. injection E as <-. discriminate H.
Qed.
Print Assumptions C137_tail_refuted.
(** Parents and inherited rotation: the sleeve gets the arm as parent, and its inherited rotation is lost, also if the bone it takes it from is not known. *)
Definition C137_parents_full : Prop := forall bs bs', parents_in bs -> C137_run bs = Some bs' -> map pbParent bs' = map (@pbParent Z) bs.
Theorem C137_parent_refuted : ~ C137_parents_full.
Proof.
  intros H. destruct (C137_run C137_model) as [bs'|] eqn:E; [|vm_compute in E; discriminate E]. specialize (H C137_model bs' (proj1 C137_example) E). vm_compute in E. injection E as <-. discriminate H.
Qed.
Print Assumptions C137_parent_refuted.
Definition C137_inherit_full : Prop := forall bs bs', parents_in bs -> C137_run bs = Some bs' ->
  Forall2 (fun b b' => pbInherit b' = None -> pbInherit b = None \/ exists ip, takes ["arm"%string] 5 bs b ip /\ pbParent b' = ip) bs bs'.
Theorem C137_inherit_refuted : ~ C137_inherit_full.
Proof.
  intros H. set (bs := [mkPB "body" (mkV3 0 1 2) (-1) (-1) None; mkPB "sleeve" (mkV3 3 4 5) 0 (-1) (Some (0, 7))]). destruct (C137_run bs) as [bs'|] eqn:E; [|vm_compute in E; discriminate E].
  assert (P : parents_in bs) by (repeat apply Forall_cons; try apply Forall_nil; cbn; lia). specialize (H bs bs' P E). vm_compute in E. injection E as <-. inversion H as [|? ? ? ? _ F]; subst. inversion F as [|? ? ? ? G _]; subst.
  destruct (G eq_refl) as [X|(ip & (w & q & X & _ & Zq & I) & _)]; [discriminate X|]. cbn in X. injection X as <- <-. cbn in Zq. injection Zq as <-. destruct I as [I|[]]. discriminate I.
Qed.
Print Assumptions C137_inherit_refuted.
