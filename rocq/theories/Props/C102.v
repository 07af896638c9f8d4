(** C102: models and documents are placed as the FBX SDK places them. *)
From Coq Require Import String List ZArith Reals Lra Bool.
From Verif.Model Require Import Num NumR Vec Matrix Fbx2Mqo FbxMatrix.
From Verif.Spec Require Import GeomSpec FbxMatrixSpec.
From Verif.Proofs Require Import MatrixLemmas FbxMatrices.
Import ListNotations.
Local Open Scope string_scope.
Local Open Scope R_scope.

(** The matrix of a model with translation, rotation, scaling and rotation before these moves points as the formula of the SDK says. *)
Theorem C102_model_partial : forall p v, plain_transform p -> mat_apply (model_matrix p) v = sdk_point p 0 v.
Proof. exact matrix_sdk. Qed.
Print Assumptions C102_model_partial.
(** The axes that a document names become X, Y and Z, and lengths stay. *)
Theorem C102_axes : forall ca ua fa cs us fs, axis ca -> axis ua -> axis fa -> ca <> ua -> ua <> fa -> ca <> fa -> sign_of cs -> sign_of us -> sign_of fs ->
  exists m, coord_matrix ca ua fa cs us fs = Some m /\ affine m /\ (forall v, mat_apply m v = mkV3 (cs * along ca v) (us * along ua v) (fs * along fa v)) /\
    (forall v w, v3dot (v3sub (mat_apply m v) (mat_apply m w)) (v3sub (mat_apply m v) (mat_apply m w)) = v3dot (v3sub v w) (v3sub v w)).
Proof.
  intros ca ua fa cs us fs A B C N1 N2 N3 S1 S2 S3. destruct (coord_axes ca ua fa cs us fs A B C) as (m & E & F & P). exists m. split; [exact E|]. split; [exact F|]. split; [exact P|].
  intros v w. now apply coord_lengths with ca ua fa cs us fs.
Qed.
Print Assumptions C102_axes.

(** A model that is moved, turned, and bent before; a pivot of a model that is not scaled does nothing. *)
Definition C102_props (n : string) : list (option R) :=
  if String.eqb n "Lcl Translation" then [Some 1; Some 2; Some 3] else if String.eqb n "Lcl Rotation" then [Some 90; Some 0; Some 45] else if String.eqb n "PreRotation" then [Some (-90); Some 0; Some 0]
  else if String.eqb n "ScalingPivot" then [Some 4; Some 5; Some 6] else [].
Example C102_meets : plain_transform C102_props.
Proof. split; [reflexivity|]. split; [reflexivity|]. split; [reflexivity|]. split; [right; reflexivity|left; reflexivity]. Qed.
(** Documents of 3ds Max: Z is up and Y points to the back. *)
Example C102_max : exists m, doc_coord (fun n => if String.eqb n "UpAxis" then Some 2%Z else if String.eqb n "FrontAxis" then Some 1%Z else None) (fun n => if String.eqb n "FrontAxisSign" then [Some (-1)] else []) = Some m /\
  mat_apply m (mkV3 1 2 3) = mkV3 1 3 (-2).
Proof.
  destruct (coord_axes 0 2 1 1 1 (-1)) as (m & E & _ & P); [now left|right; now right|right; now left|]. exists m. split; [exact E|]. rewrite P. unfold along. cbn [Z.eqb Pos.eqb vx vy vz]. comps; ring.
Qed.

(** Refuted: a model that is turned by 180 degrees about a pivot.  The pivot itself stays, but is moved here. *)
Definition C102_pivot (n : string) : list (option R) := if String.eqb n "Lcl Rotation" then [Some 0; Some 0; Some 180] else if String.eqb n "RotationPivot" then [Some 1; Some 0; Some 0] else [].
Lemma C102_rad180 : rad 180 = PI. Proof. unfold rad. field. Qed.
Theorem C102_pivot_refuted : sdk_point C102_pivot 0 (mkV3 1 0 0) = mkV3 1 0 0 /\ mat_apply (model_matrix C102_pivot) (mkV3 1 0 0) = mkV3 (-1) 0 0.
Proof.
  split.
  - unfold sdk_point. change (attr_vec (C102_pivot "ScalingPivot") 0 0 0) with (mkV3 0 0 0). change (attr_vec (C102_pivot "Lcl Scaling") 1 1 1) with (mkV3 1 1 1). change (attr_vec (C102_pivot "ScalingOffset") 0 0 0) with (mkV3 0 0 0).
    change (attr_vec (C102_pivot "RotationPivot") 0 0 0) with (mkV3 1 0 0). change (attr_vec (C102_pivot "PreRotation") 0 0 0) with (mkV3 0 0 0). change (attr_vec (C102_pivot "PostRotation") 0 0 0) with (mkV3 0 0 0).
    change (attr_vec (C102_pivot "Lcl Translation") 0 0 0) with (mkV3 0 0 0). change (attr_vec (C102_pivot "RotationOffset") 0 0 0) with (mkV3 0 0 0). change (attr_vec (C102_pivot "Lcl Rotation") 0 0 0) with (mkV3 0 0 180).
    rewrite stretched_1, !add_0, back_0, sub_0, turned_0. unfold turned. cbn [vx vy vz]. rewrite rad_0, C102_rad180, turn_x_0, turn_y_0. unfold turn_z, v3add, v3sub. cbn [vx vy vz]. rnum. rewrite sin_PI, cos_PI. comps; ring.
  - rewrite model_point. unfold get_translation, get_scaling, get_rotation_deg. change (attr_vec (C102_pivot "Lcl Scaling") 1 1 1) with (mkV3 1 1 1). change (attr_vec (C102_pivot "PreRotation") 0 0 0) with (mkV3 0 0 0).
    change (attr_vec (C102_pivot "Lcl Translation") 0 0 0) with (mkV3 0 0 0). change (attr_vec (C102_pivot "Lcl Rotation") 0 0 0) with (mkV3 0 0 180).
    rewrite stretched_1, !add_0, turned_0. unfold turned. cbn [vx vy vz]. rewrite rad_0, C102_rad180, turn_x_0, turn_y_0. unfold turn_z. cbn [vx vy vz]. rewrite sin_PI, cos_PI. comps; ring.
Qed.
Print Assumptions C102_pivot_refuted.
(** Refuted: the property RotationOrder is not read.  In order ZYX (5), Z turns first. *)
Definition C102_order (n : string) : list (option R) := if String.eqb n "Lcl Rotation" then [Some 90; Some 0; Some 90] else if String.eqb n "RotationOrder" then [Some 5] else [].
Lemma C102_rad90 : rad 90 = PI / 2. Proof. unfold rad. field. Qed.
Theorem C102_order_refuted : sdk_point C102_order 5 (mkV3 1 0 0) = mkV3 0 0 1 /\ mat_apply (model_matrix C102_order) (mkV3 1 0 0) = mkV3 0 1 0.
Proof.
  split.
  - unfold sdk_point. change (attr_vec (C102_order "ScalingPivot") 0 0 0) with (mkV3 0 0 0). change (attr_vec (C102_order "Lcl Scaling") 1 1 1) with (mkV3 1 1 1). change (attr_vec (C102_order "ScalingOffset") 0 0 0) with (mkV3 0 0 0).
    change (attr_vec (C102_order "RotationPivot") 0 0 0) with (mkV3 0 0 0). change (attr_vec (C102_order "PreRotation") 0 0 0) with (mkV3 0 0 0). change (attr_vec (C102_order "PostRotation") 0 0 0) with (mkV3 0 0 0).
    change (attr_vec (C102_order "Lcl Translation") 0 0 0) with (mkV3 0 0 0). change (attr_vec (C102_order "RotationOffset") 0 0 0) with (mkV3 0 0 0). change (attr_vec (C102_order "Lcl Rotation") 0 0 0) with (mkV3 90 0 90).
    rewrite stretched_1, !add_0, back_0, !sub_0, turned_0. unfold turned. cbn [vx vy vz]. rewrite rad_0, C102_rad90, turn_y_0. unfold turn_z, turn_x. cbn [vx vy vz]. rewrite sin_PI2, cos_PI2. comps; ring.
  - rewrite model_point. unfold get_translation, get_scaling, get_rotation_deg. change (attr_vec (C102_order "Lcl Scaling") 1 1 1) with (mkV3 1 1 1). change (attr_vec (C102_order "PreRotation") 0 0 0) with (mkV3 0 0 0).
    change (attr_vec (C102_order "Lcl Translation") 0 0 0) with (mkV3 0 0 0). change (attr_vec (C102_order "Lcl Rotation") 0 0 0) with (mkV3 90 0 90).
    rewrite stretched_1, !add_0, turned_0. unfold turned. cbn [vx vy vz]. rewrite rad_0, C102_rad90, turn_y_0. unfold turn_z, turn_x. cbn [vx vy vz]. rewrite sin_PI2, cos_PI2. comps; ring.
Qed.
Print Assumptions C102_order_refuted.
(** Refuted: the unit of the document is not read: two documents that differ in it only are placed alike, so one metre becomes as long as one centimetre. *)
Definition C102_unit (u : R) (n : string) : list (option R) := if String.eqb n "UnitScaleFactor" then [Some u] else [].
Theorem C102_unit_refuted : exists m, doc_coord (fun _ => None) (C102_unit 1) = Some m /\ doc_coord (fun _ => None) (C102_unit 100) = Some m /\ mat_apply m (mkV3 1 0 0) = mkV3 1 0 0.
Proof.
  destruct (coord_axes 0 1 2 1 1 1) as (m & E & _ & P); [now left|right; now left|right; now right|]. exists m. split; [exact E|]. split; [exact E|]. rewrite P. unfold along. cbn [Z.eqb Pos.eqb vx vy vz]. comps; ring.
Qed.
Print Assumptions C102_unit_refuted.
