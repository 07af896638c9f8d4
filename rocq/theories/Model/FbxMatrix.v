(** Matrices that [fbx/fbx_model.go] and [fbx/fbx_document.go] compute from properties, over exact reals. *)
From Coq Require Import String List ZArith Reals.
From Verif.Model Require Import Num NumR Vec Matrix Euler Fbx2Mqo.
Import ListNotations.
Local Open Scope string_scope.
Local Open Scope R_scope.

(** What [GetProperty] finds for numbers: see [fxProp] in Model/Fbx2Mqo.v. *)
Definition numbers_of : Type := string -> list (option R).
(** [GetTranslation], [GetRotation], [GetScaling] (fbx_model.go 26-44). *)
Definition get_translation (p : numbers_of) : vec3 R := attr_vec (p "Lcl Translation") 0 0 0.
Definition get_rotation_deg (p : numbers_of) : vec3 R := attr_vec (p "Lcl Rotation") 0 0 0.
Definition get_scaling (p : numbers_of) : vec3 R := attr_vec (p "Lcl Scaling") 1 1 1.
(** [UpdateMatrix] (fbx_model.go 54-65). *)
Definition model_matrix (p : numbers_of) : mat4 R :=
  let prerot := mat_rot (euler_to_quat (mkE (v3scale (attr_vec (p "PreRotation") 0 0 0) (PI / 180)) ZYX)) in
  let t := get_translation p in
  let rot := mat_rot (euler_to_quat (mkE (v3scale (get_rotation_deg p) (PI / 180)) ZYX)) in
  let s := get_scaling p in
  mat_mul (mat_mul (mat_mul (mat_translate (vx t) (vy t) (vz t)) prerot) rot) (mat_scale (vx s) (vy s) (vz s)).
(** [CoordMatrix] (fbx_document.go 169-181): the axes are integer properties of the settings, the signs numbers. *)
Definition doc_coord (ints : string -> option Z) (p : numbers_of) : option (mat4 R) :=
  let axis n def := match ints n with Some i => i | None => def end in
  let sign n := attr_num (p n) 0 1 in
  coord_matrix (axis "CoordAxis" 0%Z) (axis "UpAxis" 1%Z) (axis "FrontAxis" 2%Z) (sign "CoordAxisSign") (sign "UpAxisSign") (sign "FrontAxisSign").
