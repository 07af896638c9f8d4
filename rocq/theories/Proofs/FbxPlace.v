(** Meshes of converted FBX documents are where the document says. *)
From Coq Require Import String Ascii List ZArith Bool Lia Reals Lra.
From Verif.Model Require Import Num NumR Vec Matrix Mqo MqoDoc Mmd2Mqo FbxDoc Fbx2Mqo.
From Verif.Spec Require Import GeomSpec FbxDocSpec FbxSceneSpec FbxMeshSpec.
From Verif.Proofs Require Import MatrixLemmas FbxDocProofs FbxWalk FbxTree FbxObjects FbxFaces.
Import ListNotations.
Local Open Scope list_scope.
Local Open Scope Z_scope.

Section C.
Context {T : Type} {N : Num T}.
Variable d : fdoc T.
Variable op : foption T.
Variable depth : nat -> nat.
Hypothesis TD : tree_doc d depth.

Lemma walks_chain : forall path os vs, walks d (opWhole op) path os vs -> let top := last path (fdScene d) in is_model d top = true -> chain (parent d) top (fdScene d :: path) -> (forall o, In o os -> In o (children d top)) ->
  Forall (fun p => chain (parent d) (last p 0%nat) (fdScene d :: p)) vs.
Proof.
  apply (walks_mut T d (opWhole op) (fun path o vs _ => let top := last path (fdScene d) in is_model d top = true -> chain (parent d) top (fdScene d :: path) -> In o (children d top) -> Forall (fun p => chain (parent d) (last p 0%nat) (fdScene d :: p)) vs)
    (fun path os vs _ => let top := last path (fdScene d) in is_model d top = true -> chain (parent d) top (fdScene d :: path) -> (forall o, In o os -> In o (children d top)) -> Forall (fun p => chain (parent d) (last p 0%nat) (fdScene d :: p)) vs)).
  - intros path o vs _ IH. cbn zeta. intros M C I.
    assert (CO : chain (parent d) o (fdScene d :: path ++ [o])).
    { change (fdScene d :: path ++ [o]) with ((fdScene d :: path) ++ [o]). apply ch_up with (last path (fdScene d)); [|exact C]. apply (parent_link d depth TD). now apply (children_links d depth TD). }
    constructor; [now rewrite last_last|]. cbn zeta in IH. rewrite last_last in IH. apply IH; [exact (children_model d _ _ I)|exact CO|]. intros c J. now apply filter_In in J.
  - constructor.
  - intros path o os vs ws _ IH1 _ IH2. cbn zeta in *. intros M C I. apply Forall_app. split; [apply IH1; [exact M|exact C|apply I; now left]|apply IH2; [exact M|exact C|intros; apply I; now right]].
Qed.
End C.

Section P.
Local Open Scope R_scope.
Lemma fold_mul_assoc (a b : mat4 R) l : fold_left mat_mul l (mat_mul a b) = mat_mul a (fold_left mat_mul l b).
Proof. revert b. induction l as [|x l IH]; intros b; [reflexivity|]. cbn [fold_left]. rewrite <- IH. now rewrite mat_mul_assoc. Qed.
Lemma placed_world (d : fdoc R) op coord p : in_place op -> p <> [] -> chain (parent d) (last p 0%nat) (fdScene d :: p) ->
  exists w, world_of d (last p 0%nat) w /\ placed d (top_place d op coord) p = mat_mul coord w.
Proof.
  intros IP NE C. destruct p as [|o r]; [congruence|]. exists (fold_left mat_mul (map (local d) (o :: r)) (local d (fdScene d))). split.
  - exists (length (fdScene d :: o :: r)). intros f F. unfold world_matrix. rewrite (world_chain mat_mul (local d) _ _ _ C f F). reflexivity.
  - cbn [placed map fold_left].
    assert (E : top_place d op coord o = mat_mul (mat_mul coord (local d (fdScene d))) (local d o)).
    { unfold top_place, model_transform. destruct IP as [L| -> ]; [|now destruct (_ && _)%bool]. replace (0 <? opDepth op)%Z with false by (symmetry; apply Z.ltb_ge; lia). reflexivity. }
    rewrite E, <- mat_mul_assoc. apply fold_mul_assoc.
Qed.

Lemma fbx_meshes tenth facet (d : fdoc R) op depth fuel objs old st mats : opTarget op = ""%string -> opOverride op = None -> in_place op -> tree_doc d depth -> NoDup (fdMats d) ->
  convert_fbx tenth facet d fuel op objs (length old) = FOk (st, mats) ->
  exists coord vs os, fdCoord d = Some coord /\ fsObjs st = objs ++ os /\ (forall o, In o (map (fun p => last p 0%nat) vs) <-> shown d op o) /\
    Forall2 (fun l x => shows d op l x /\ (snd l = None -> meshed (convert_material tenth d) d coord (old ++ mats) (model_of l) x)) (flat_map (labels d op) vs) os.
Proof.
  intros OT OO IP TD ND H. destruct (fbx_ok _ _ _ _ _ _ _ _ _ OT H) as (coord & sel & vs & oss & ms & js & s & CO & TS & W & B & J & E & EM). rewrite OO in EM. subst mats.
  exists coord, vs, (concat oss). split; [exact CO|]. split; [now rewrite E|]. split; [exact (walks_shown d op sel vs TS W)|].
  destruct (blocks_ok facet d op (length old) (top_place d op coord) (length objs) vs oss ms js) as [U F]; [exact (walks_nonempty _ _ _ _ _ W)|exact B|].
  assert (CH := walks_chain d op depth TD _ _ _ W). cbn zeta in CH. cbn [last] in CH. specialize (CH (td_scene _ _ TD)). assert (CS : chain (parent d) (fdScene d) [fdScene d]) by (apply ch_root; exact (parent_scene d depth TD)).
  specialize (CH CS ltac:(intros o I; now apply filter_In in I)). assert (NEP := walks_nonempty _ _ _ _ _ W).
  assert (LP : Forall (fun l => fst l <> [] /\ chain (parent d) (model_of l) (fdScene d :: fst l)) (flat_map (labels d op) vs)).
  { apply Forall_forall. intros l I. apply in_flat_map in I. destruct I as (p & P & I). rewrite Forall_forall in CH, NEP. specialize (CH _ P). specialize (NEP _ P). unfold labels in I. destruct I as [<-|I]; [now split|]. apply in_map_iff in I. destruct I as (sh & <- & _). now split. }
  clear - F LP ND IP OO. induction F as [|l x L os D F IH]; [constructor|]. inversion LP as [|? ? [P1 P2] LP']; subst. constructor; [|now apply IH]. split; [exact (proj1 D)|]. intros SN. destruct D as (_ & _ & _ & _ & D). rewrite SN in D.
  unfold meshed. unfold base_object in D. fold (model_of l) in D. destruct (geometry d (model_of l)) as [[k g]|]; [|exact D]. destruct D as (V & mats & MM & CF). destruct (placed_world d op coord (fst l) IP P1 P2) as (w & WO & PW). fold (model_of l) in WO. rewrite PW in V, CF.
  exists w, mats. split; [exact WO|]. split; [|split; [exact V|now apply faces_drawn]]. intros j mo OM IM. apply In_nth_error in IM. destruct IM as (p & IM). exact (materials_ok _ _ _ _ _ _ _ old j mo p OO MM eq_refl ND OM IM).
Qed.

(** *** Sides *)
Lemma v3sub_0 (v : vec3 R) : v3sub v (mkV3 0 0 0) = v.
Proof. destruct v as [x y z]. unfold v3sub. cbn [vx vy vz]. rnum. now rewrite !Rminus_0_r. Qed.
Lemma v3_eq_dec (u v : vec3 R) : u = v \/ u <> v.
Proof. destruct u as [a b c], v as [x y z]. destruct (Req_dec a x); [|right; congruence]. destruct (Req_dec b y); [|right; congruence]. destruct (Req_dec c z); [left; now subst|right; congruence]. Qed.
Lemma dot_self (v : vec3 R) : v <> mkV3 0 0 0 -> 0 < v3dot v v.
Proof.
  intros H. destruct v as [x y z]. unfold v3dot; cbn [vx vy vz]; rnum. assert (A := Rle_0_sqr x). assert (B := Rle_0_sqr y). assert (C := Rle_0_sqr z). unfold Rsqr in *.
  destruct (Req_dec x 0) as [X|X]; [|assert (P := Rsqr_pos_lt _ X); unfold Rsqr in P; lra]. destruct (Req_dec y 0) as [Y|Y]; [|assert (P := Rsqr_pos_lt _ Y); unfold Rsqr in P; lra]. destruct (Req_dec z 0) as [Z|Z]; [|assert (P := Rsqr_pos_lt _ Z); unfold Rsqr in P; lra].
  subst. now exfalso.
Qed.
Lemma triple_moved m (u v y : vec3 R) : affine m ->
  v3dot (v3cross (mat_apply (MqoObjProofs.rs_part m) u) (mat_apply (MqoObjProofs.rs_part m) v)) (mat_apply (MqoObjProofs.rs_part m) y) = mat_det m * v3dot (v3cross u v) y.
Proof.
  intros (A3 & A7 & A11 & A15). destruct m as [a0 a1 a2 a3 a4 a5 a6 a7 a8 a9 a10 a11 a12 a13 a14 a15]. cbn [m3 m7 m11 m15] in *. subst a3 a7 a11 a15.
  destruct u as [u0 u1 u2], v as [v0 v1 v2], y as [y0 y1 y2]. unfold mat_det, mat_t11, mat_t12, mat_t13, mat_t14, v3dot, v3cross, mat_apply, MqoObjProofs.rs_part. cbn [m0 m1 m2 m3 m4 m5 m6 m7 m8 m9 m10 m11 m12 m13 m14 m15 vx vy vz]. rnum. ring.
Qed.
Lemma cross_moved m (u v : vec3 R) : affine m -> mat_det m <> 0 -> v3cross (mat_apply (MqoObjProofs.rs_part m) u) (mat_apply (MqoObjProofs.rs_part m) v) = v3scale (mat_apply (normal_transform m) (v3cross u v)) (mat_det m).
Proof.
  intros A D. set (p := v3cross (mat_apply _ u) _). set (q := v3scale _ _).
  assert (X : forall y, v3dot p (mat_apply (MqoObjProofs.rs_part m) y) = v3dot q (mat_apply (MqoObjProofs.rs_part m) y)).
  { intro y. unfold p. rewrite triple_moved by exact A. unfold q. assert (E := MqoObjProofs.normal_dot m (v3cross u v) y (mkV3 0 0 0) A D). rewrite MqoObjProofs.apply_sub in E. replace (v3sub y (mkV3 0 0 0)) with y in E by (symmetry; apply v3sub_0). rewrite <- E.
    generalize (mat_apply (normal_transform m) (v3cross u v)) (mat_apply (MqoObjProofs.rs_part m) y) (mat_det m). intros [a b c] [x0 y0 z0] k. unfold v3dot, v3scale; cbn [vx vy vz]; rnum. ring. }
  assert (D' : mat_det (MqoObjProofs.rs_part m) <> 0) by (rewrite MqoObjProofs.rs_part_det; assumption).
  assert (L : affine (mat_inverse (MqoObjProofs.rs_part m))) by (apply MqoObjProofs.linear3_inverse; [apply MqoObjProofs.rs_part_linear; exact A|exact D']).
  assert (Y : forall z, v3dot (v3sub p q) z = 0).
  { intro z. specialize (X (mat_apply (mat_inverse (MqoObjProofs.rs_part m)) z)). rewrite <- !mat_apply_mul, !mat_inverse_r, !mat_apply_id in X by assumption. clearbody p q. destruct p as [p0 p1 p2], q as [q0 q1 q2], z as [z0 z1 z2]. unfold v3dot, v3sub in *; cbn [vx vy vz] in *; rnum. lra. }
  destruct (v3_eq_dec (v3sub p q) (mkV3 0 0 0)) as [E|E].
  - clearbody p q. destruct p as [p0 p1 p2], q as [q0 q1 q2]. unfold v3sub in E; cbn [vx vy vz] in E; rnum. injection E as E1 E2 E3. comps; lra.
  - exfalso. assert (P := dot_self _ E). rewrite Y in P. lra.
Qed.
(** Which side of a triangle a vector points to. *)
Lemma side_moved m (a b c : vec3 R) k : affine m -> mat_det m <> 0 -> 0 < k -> v3cross (v3sub b a) (v3sub c a) <> mkV3 0 0 0 ->
  let n := v3scale (v3cross (v3sub b a) (v3sub c a)) k in
  (0 < mat_det m <-> 0 < v3dot (mat_apply (normal_transform m) n) (v3cross (v3sub (mat_apply m b) (mat_apply m a)) (v3sub (mat_apply m c) (mat_apply m a)))).
Proof.
  intros A D K NZ n. rewrite !MqoObjProofs.apply_sub, cross_moved by assumption. set (x := v3cross (v3sub b a) (v3sub c a)) in *.
  assert (L : mat_apply (normal_transform m) n = v3scale (mat_apply (normal_transform m) x) k).
  { destruct (MqoObjProofs.normal_transform_linear m A D) as (_ & Z1 & Z2 & Z3). subst n. clearbody x. unfold mat_apply. rewrite Z1, Z2, Z3. unfold v3scale. cbn [vx vy vz]. rnum. comps; ring. }
  rewrite L. set (y := mat_apply (normal_transform m) x).
  assert (NY : y <> mkV3 0 0 0).
  { intro E. apply NZ. assert (Z0 : forall u, v3dot x (v3sub u (mkV3 0 0 0)) = 0).
    { intro u. rewrite <- (MqoObjProofs.normal_dot m) by assumption. fold y. rewrite E. unfold v3dot; mproj; rnum; ring. }
    destruct (v3_eq_dec x (mkV3 0 0 0)) as [Q|Q]; [exact Q|]. assert (P := dot_self x Q). specialize (Z0 x). replace (v3sub x (mkV3 0 0 0)) with x in Z0 by (symmetry; apply v3sub_0). lra. }
  assert (Y := dot_self y NY). assert (E : v3dot (v3scale y k) (v3scale y (mat_det m)) = k * mat_det m * v3dot y y) by (destruct y as [y0 y1 y2]; unfold v3dot, v3scale; cbn [vx vy vz]; rnum; ring). rewrite E.
  assert (KY : 0 < k * v3dot y y) by (now apply Rmult_lt_0_compat). rewrite Rmult_assoc, (Rmult_comm (mat_det m)), <- Rmult_assoc. split; intros H; [now apply Rmult_lt_0_compat|]. apply (Rmult_lt_reg_l (k * v3dot y y)); [exact KY|]. now rewrite Rmult_0_r.
Qed.
End P.
