(** Proofs about sizes. *)
From Coq Require Import String Ascii List ZArith Reals Bool Lra.
From Verif.Model Require Import Num NumR Vec Matrix Cli Mmd2Mqo Mqo2Mmd Mqo2Gltf Units GlbAnim.
From Verif.Spec Require Import GeomSpec TransformSpec UnitSpec.
From Verif.Proofs Require Import MatrixLemmas TransformProofs.
Import ListNotations.
Local Open Scope R_scope.
Local Open Scope string_scope.

Lemma f_equal3 (a b c x y z : R) : a = x -> b = y -> c = z -> mkV3 a b c = mkV3 x y z.
Proof. congruence. Qed.
Definition diag (x y z : R) (v : vec3 R) : vec3 R := mkV3 (x * vx v) (y * vy v) (z * vz v).
Lemma diag_sized x y z k ui uo hi ho : uo * uo * (x * x) = k * ui * (k * ui) -> uo * uo * (y * y) = k * ui * (k * ui) -> uo * uo * (z * z) = k * ui * (k * ui) ->
  ho * (uo * uo * uo) * (x * y * z) = hi * (k * ui * (k * ui) * (k * ui)) -> sized k ui uo hi ho (diag x y z).
Proof.
  intros X Y Z V. unfold sized, dist2, volume, diag; cbn [vx vy vz]. split.
  - intros a b.
    replace (uo * uo * _) with ((uo * uo * (x * x)) * ((vx b - vx a) * (vx b - vx a)) + (uo * uo * (y * y)) * ((vy b - vy a) * (vy b - vy a)) + (uo * uo * (z * z)) * ((vz b - vz a) * (vz b - vz a))) by ring.
    rewrite X, Y, Z. ring.
  - intros a b c d.
    match goal with |- _ = _ * _ * ?V0 => replace (ho * (uo * uo * uo) * _) with ((ho * (uo * uo * uo) * (x * y * z)) * V0) by ring end. rewrite V. ring.
Qed.

Definition sgn (rot : bool) : R := if rot then -1 else 1.
Definition factor (i : string) (scale : R) : R := if Reqb scale 0 then (if is_mmd i then 80 else 1) else scale.
Lemma Reqb_true a b : Reqb a b = true -> a = b.
Proof. unfold Reqb. destruct (Req_EM_T a b); [auto|discriminate]. Qed.
Lemma scale_point_diag rot i scale sx sy sz v : scale_point (scale_vec 80 rot i scale sx sy sz) v =
  diag (sgn rot * (factor i scale * sx)) (factor i scale * sy) (sgn rot * (factor i scale * sz)) v.
Proof.
  unfold scale_vec. cbv zeta. change (neqb scale nzero) with (Reqb scale 0). fold (factor i scale).
  change (if Reqb scale 0 then if is_mmd i then 80 else none else scale) with (factor i scale).
  generalize (factor i scale) as s. intros s. unfold diag.
  destruct rot; cbn [vx vy vz sgn]; match goal with |- context [if ?b then None else _] => destruct b eqn:E end; unfold scale_point; try rewrite scale_apply; unfold scaled; cbn [vx vy vz];
    try (apply f_equal3; rnum; ring).
  - apply andb_true_iff in E as [E Z]. apply andb_true_iff in E as [X Y]. change (Reqb (- (s * sx)) 1 = true) in X. change (Reqb (s * sy) 1 = true) in Y. change (Reqb (- (s * sz)) 1 = true) in Z.
    apply Reqb_true in X. apply Reqb_true in Y. apply Reqb_true in Z. destruct v as [a b c]; cbn [vx vy vz]. f_equal.
    + replace (-1 * (s * sx)) with (- (s * sx)) by ring. rewrite X. ring.
    + rewrite Y. ring.
    + replace (-1 * (s * sz)) with (- (s * sz)) by ring. rewrite Z. ring.
  - apply andb_true_iff in E as [E Z]. apply andb_true_iff in E as [X Y]. change (Reqb (s * sx) 1 = true) in X. change (Reqb (s * sy) 1 = true) in Y. change (Reqb (s * sz) 1 = true) in Z.
    apply Reqb_true in X. apply Reqb_true in Y. apply Reqb_true in Z. destruct v as [a b c]; cbn [vx vy vz]. rewrite X, Y, Z. f_equal; ring.
Qed.
Lemma diag_diag a b c x y z v : diag a b c (diag x y z v) = diag (a * x) (b * y) (c * z) v.
Proof. unfold diag; cbn [vx vy vz]. f_equal; ring. Qed.
Lemma mirror_diag v : mirror v = diag 1 1 (-1) v.
Proof. unfold mirror, diag, minus1. change (@nmul R RNum) with Rmult. change (@nopp R RNum) with Ropp. change (@none R RNum) with 1. destruct v as [a b c]; cbn [vx vy vz]. f_equal; ring. Qed.
Lemma gltf_diag v : v3scaled (1 / 1000) v = diag (1 / 1000) (1 / 1000) (1 / 1000) v.
Proof. unfold v3scaled, diag. change (@nmul R RNum) with Rmult. f_equal; ring. Qed.
Lemma pmx_diag v : to_pmx (1 / 80) v = diag (1 / 80) (1 / 80) (-1 / 80) v.
Proof. unfold to_pmx, diag. change (@nmul R RNum) with Rmult. change (@nopp R RNum) with Ropp. change (@none R RNum) with 1. f_equal; field. Qed.
Lemma id_diag v : v = diag 1 1 1 v.
Proof. unfold diag. destruct v as [a b c]; cbn [vx vy vz]. f_equal; ring. Qed.

(** All cases but FBX: the point is moved by three factors. *)
Definition load_z (i : string) : R := if is_mmd i then -1 else 1.
Definition save_f (o : string) : R := if is_gltf o then 1 / 1000 else if String.eqb o ".pmx" then 1 / 80 else 1.
Definition save_z (o : string) : R := if String.eqb o ".pmx" then -1 else 1.
Lemma whole_diag coord rot180 scale i o v :
  In i (mqo_formats ++ mmd_formats ++ gltf_formats) -> In o (mqo_formats ++ [".pmx"] ++ gltf_formats) ->
  let s := factor i scale in let r := sgn (rot180 || is_mmd i && String.eqb o ".vrm") in
  let f := if is_gltf i && is_gltf o then 1 else save_f o in
  whole_point coord rot180 scale 1 1 1 i o v = Some (diag (f * (r * s)) (f * s) (save_z o * f * (r * s * load_z i)) v).
Proof.
  intros I O. cbv zeta. unfold whole_point. set (s := scale_point _). assert (S0 : forall w, s w = diag (sgn (rot180 || is_mmd i && String.eqb o ".vrm") * factor i scale) (factor i scale) (sgn (rot180 || is_mmd i && String.eqb o ".vrm") * factor i scale) w).
  { intros w. unfold s. rewrite scale_point_diag. unfold diag. f_equal; ring. } clearbody s.
  generalize dependent (sgn (rot180 || is_mmd i && String.eqb o ".vrm")). intros r S0. generalize dependent (factor i scale). intros k S0.
  cbn [app mqo_formats mmd_formats gltf_formats In] in I, O.
  destruct I as [<-|[<-|[<-|[<-|[<-|[<-|[<-|[]]]]]]]]; destruct O as [<-|[<-|[<-|[<-|[<-|[<-|[]]]]]]];
    cbn [negb can_save can_load is_mqo is_gltf is_mmd is_unity existsb String.eqb Ascii.eqb Bool.eqb orb andb];
    unfold save_point, load_point, save_f, save_z, load_z; cbn [is_mqo is_gltf is_mmd existsb String.eqb Ascii.eqb Bool.eqb orb andb];
    rewrite ?mirror_diag, S0, ?gltf_diag, ?pmx_diag, ?diag_diag; f_equal; unfold diag; f_equal; field.
Qed.

(** How much larger things get. *)
Definition gain (i : string) (scale : R) (o : string) : R :=
  let f := if is_gltf i && is_gltf o then 1 else save_f o in
  let mm e := if is_mmd e then 80 else if is_gltf e then 1000 else 1 in f * factor i scale * mm o / mm i.
Theorem whole_sized coord rot180 scale i o ui uo u : In i (mqo_formats ++ mmd_formats ++ gltf_formats) -> In o (mqo_formats ++ [".pmx"] ++ gltf_formats) -> unit_of u i ui -> unit_of u o uo ->
  exists f, (forall v, whole_point coord rot180 scale 1 1 1 i o v = Some (f v)) /\ sized (gain i scale o) ui uo (hand i) (hand o) f.
Proof.
  intros I O Ui Uo. eexists. split; [intros v; exact (whole_diag coord rot180 scale i o v I O)|].
  assert (Ei : ui = if is_mmd i then 80 else if is_gltf i then 1000 else 1).
  { clear -I Ui. inversion Ui as [e H|e H|e H|]; subst; try (cbn [mqo_formats mmd_formats gltf_formats In] in H; repeat (destruct H as [<-|H]; [reflexivity|]); destruct H).
    exfalso. cbn in I. repeat (destruct I as [I|I]; [discriminate|]). destruct I. }
  assert (Eo : uo = if is_mmd o then 80 else if is_gltf o then 1000 else 1).
  { clear -O Uo. inversion Uo as [e H|e H|e H|]; subst; try (cbn [mqo_formats mmd_formats gltf_formats In] in H; repeat (destruct H as [<-|H]; [reflexivity|]); destruct H).
    exfalso. cbn in O. repeat (destruct O as [O|O]; [discriminate|]). destruct O. }
  rewrite Ei, Eo. clear Ui Uo Ei Eo ui uo. unfold gain. generalize (factor i scale) as k. intros k.
  assert (R1 : exists r, sgn (rot180 || is_mmd i && String.eqb o ".vrm") = r /\ r * r = 1) by (eexists; split; [reflexivity|]; unfold sgn; destruct (_ || _); ring).
  destruct R1 as (r & -> & R1).
  cbn [app mqo_formats mmd_formats gltf_formats In] in I, O.
  destruct I as [<-|[<-|[<-|[<-|[<-|[<-|[<-|[]]]]]]]]; destruct O as [<-|[<-|[<-|[<-|[<-|[<-|[]]]]]]]; unfold hand, save_f, save_z, load_z;
    cbn [is_mqo is_gltf is_mmd existsb String.eqb Ascii.eqb Bool.eqb orb andb mmd_formats]; apply diag_sized;
    (field || (match goal with |- ?a = ?b => transitivity (b * (r * r)); [field|rewrite R1; ring] end)).
Qed.

Lemma factor_default i : factor i 0 = if is_mmd i then 80 else 1.
Proof. unfold factor, Reqb. destruct (Req_EM_T 0 0) as [|N]; [reflexivity|destruct (N eq_refl)]. Qed.
Lemma factor_given i k : k <> 0 -> factor i k = k.
Proof. intros N. unfold factor, Reqb. destruct (Req_EM_T k 0); [contradiction|reflexivity]. Qed.
Definition doc_out : list string := mqo_formats ++ [".pmx"] ++ gltf_formats.

Theorem size_default coord rot180 i o ui uo u : In i (mqo_formats ++ mmd_formats) -> In o doc_out -> unit_of u i ui -> unit_of u o uo ->
  exists f, (forall v, whole_point coord rot180 0 1 1 1 i o v = Some (f v)) /\ sized 1 ui uo (hand i) (hand o) f.
Proof.
  intros I O Ui Uo. destruct (whole_sized coord rot180 0 i o ui uo u) as (f & W & Sz); [rewrite app_assoc; apply in_or_app; left; exact I|exact O|exact Ui|exact Uo|].
  exists f. split; [exact W|]. replace 1 with (gain i 0 o); [exact Sz|]. unfold gain. rewrite factor_default. clear -I O. unfold doc_out, save_f in *.
  cbn [app mqo_formats mmd_formats gltf_formats In] in I, O.
  destruct I as [<-|[<-|[<-|[<-|[]]]]]; destruct O as [<-|[<-|[<-|[<-|[<-|[<-|[]]]]]]]; cbn [is_mqo is_gltf is_mmd existsb String.eqb Ascii.eqb Bool.eqb orb andb]; field.
Qed.
Theorem size_scaled coord rot180 k i o ui uo u : k <> 0 -> (In i mqo_formats /\ In o doc_out) \/ (In i gltf_formats /\ In o gltf_formats) -> unit_of u i ui -> unit_of u o uo ->
  exists f, (forall v, whole_point coord rot180 k 1 1 1 i o v = Some (f v)) /\ sized k ui uo (hand i) (hand o) f.
Proof.
  intros K IO Ui Uo. destruct (whole_sized coord rot180 k i o ui uo u) as (f & W & Sz);
    [destruct IO as [[I _]|[I _]]; [apply in_or_app; left; exact I|rewrite app_assoc; apply in_or_app; right; exact I]
    |destruct IO as [[_ O]|[_ O]]; [exact O|rewrite app_assoc; apply in_or_app; right; exact O]|exact Ui|exact Uo|].
  exists f. split; [exact W|]. replace k with (gain i k o) at 1; [exact Sz|]. unfold gain. rewrite factor_given by exact K. clear -IO. unfold doc_out, save_f in *.
  cbn [app mqo_formats mmd_formats gltf_formats In] in IO. destruct IO as [[I O]|[I O]].
  - destruct I as [<-|[<-|[]]]; destruct O as [<-|[<-|[<-|[<-|[<-|[<-|[]]]]]]]; cbn [is_mqo is_gltf is_mmd existsb String.eqb Ascii.eqb Bool.eqb orb andb]; field.
  - destruct I as [<-|[<-|[<-|[]]]]; destruct O as [<-|[<-|[<-|[]]]]; cbn [is_mqo is_gltf is_mmd existsb String.eqb Ascii.eqb Bool.eqb orb andb]; field.
Qed.
Theorem size_mmd_scaled coord rot180 k i o ui uo u : k <> 0 -> In i mmd_formats -> In o doc_out -> unit_of u i ui -> unit_of u o uo ->
  exists f, (forall v, whole_point coord rot180 k 1 1 1 i o v = Some (f v)) /\ sized (k / 80) ui uo (hand i) (hand o) f.
Proof.
  intros K I O Ui Uo. destruct (whole_sized coord rot180 k i o ui uo u) as (f & W & Sz); [apply in_or_app; right; apply in_or_app; left; exact I|exact O|exact Ui|exact Uo|].
  exists f. split; [exact W|]. replace (k / 80) with (gain i k o); [exact Sz|]. unfold gain. rewrite factor_given by exact K. clear -I O. unfold doc_out, save_f in *.
  cbn [app mqo_formats mmd_formats gltf_formats In] in I, O.
  destruct I as [<-|[<-|[]]]; destruct O as [<-|[<-|[<-|[<-|[<-|[<-|[]]]]]]]; cbn [is_mqo is_gltf is_mmd existsb String.eqb Ascii.eqb Bool.eqb orb andb]; field.
Qed.
Theorem size_gltf coord rot180 i o ui uo u : In i gltf_formats -> In o (mqo_formats ++ [".pmx"]) -> unit_of u i ui -> unit_of u o uo ->
  exists f, (forall v, whole_point coord rot180 0 1 1 1 i o v = Some (f v)) /\ sized (1 / 1000) ui uo (hand i) (hand o) f.
Proof.
  intros I O Ui Uo. destruct (whole_sized coord rot180 0 i o ui uo u) as (f & W & Sz);
    [rewrite app_assoc; apply in_or_app; right; exact I|rewrite app_assoc; apply in_or_app; left; exact O|exact Ui|exact Uo|].
  exists f. split; [exact W|]. replace (1 / 1000) with (gain i 0 o); [exact Sz|]. unfold gain. rewrite factor_default. clear -I O. unfold save_f in *.
  cbn [app mqo_formats mmd_formats gltf_formats In] in I, O.
  destruct I as [<-|[<-|[<-|[]]]]; destruct O as [<-|[<-|[<-|[]]]]; cbn [is_mqo is_gltf is_mmd existsb String.eqb Ascii.eqb Bool.eqb orb andb]; field.
Qed.
Lemma save_diag o v : In o doc_out -> save_point o v = diag (save_f o) (save_f o) (save_z o * save_f o) v.
Proof.
  unfold doc_out. cbn [app mqo_formats gltf_formats In]. intros O. unfold save_point, save_f, save_z.
  destruct O as [<-|[<-|[<-|[<-|[<-|[<-|[]]]]]]]; cbn [is_gltf existsb String.eqb Ascii.eqb Bool.eqb orb andb];
    [rewrite (id_diag v) at 1|rewrite (id_diag v) at 1|rewrite pmx_diag|rewrite gltf_diag|rewrite gltf_diag|rewrite gltf_diag]; unfold diag; apply f_equal3; field.
Qed.
Lemma fbx_whole coord rot180 o v : In o doc_out ->
  whole_point coord rot180 0 1 1 1 ".fbx" o v = Some (save_point o (scale_point (scale_vec 80 (rot180 || false) ".fbx" 0 1 1 1) (mat_apply coord v))).
Proof.
  unfold doc_out. cbn [app mqo_formats gltf_formats In]. intros O. unfold whole_point.
  destruct O as [<-|[<-|[<-|[<-|[<-|[<-|[]]]]]]]; reflexivity.
Qed.
(** FBX: the unit of the document does not occur. *)
Theorem size_fbx coord rot180 u o uo : (forall v, mat_apply coord v = v) -> u > 0 -> In o doc_out -> unit_of u o uo ->
  exists f, (forall v, whole_point coord rot180 0 1 1 1 ".fbx" o v = Some (f v)) /\ sized (1 / (10 * u)) (10 * u) uo (hand ".fbx") (hand o) f.
Proof.
  intros C U O Uo. eexists. split.
  - intros v. rewrite fbx_whole by exact O. rewrite scale_point_diag, C, save_diag, diag_diag by exact O. reflexivity.
  - assert (Eo : uo = if is_mmd o then 80 else if is_gltf o then 1000 else 1).
    { clear -O Uo. unfold doc_out in O. inversion Uo as [e H|e H|e H|]; subst; try (cbn [mqo_formats mmd_formats gltf_formats In] in H; repeat (destruct H as [<-|H]; [reflexivity|]); destruct H).
      exfalso. cbn in O. repeat (destruct O as [O|O]; [discriminate|]). destruct O. }
    rewrite Eo. assert (R1 : exists r, sgn (rot180 || false) = r /\ r * r = 1) by (eexists; split; [reflexivity|]; unfold sgn; destruct (_ || _); ring).
    destruct R1 as (r & -> & R1). rewrite factor_default. unfold doc_out, hand, save_f, save_z in *. cbn [app mqo_formats mmd_formats gltf_formats In] in O.
    destruct O as [<-|[<-|[<-|[<-|[<-|[<-|[]]]]]]]; cbn [is_gltf is_mmd existsb String.eqb Ascii.eqb Bool.eqb orb andb mmd_formats]; apply diag_sized;
      ((field; lra) || (match goal with |- ?a = ?b => transitivity (b * (r * r)); [field; lra|rewrite R1; ring] end)).
Qed.
