(** Smooth normals. *)
From Coq Require Import String List ZArith Bool Lia Reals Lra.
From Verif.Model Require Import Num NumR Vec Matrix Mqo MqoDoc Normals.
From Verif Require Import Proofs.MatrixLemmas Spec.NormalsSpec Proofs.MqoObjProofs Proofs.MqoDocProofs Proofs.Mmd2MqoFaces.
Import ListNotations.
Local Open Scope Z_scope.
Local Open Scope list_scope.

Section Proofs.
Context {T : Type} {N : Num T}.

Lemma point_zidx (o : object T) v : 0 <= v < Z.of_nat (length (oVerts o)) -> zidx (oVerts o) v = Some (point o v).
Proof. intros H. apply zidx_Some. split; [lia|]. unfold point. apply nth_error_nth'. lia. Qed.

Lemma corner_normal_at (o : object T) (f : face T) i : Forall (fun v => 0 <= v < Z.of_nat (length (oVerts o))) (fVerts f) ->
  (i < length (fVerts f))%nat -> corner_normal (oVerts o) f i (nth i (fVerts f) 0) = Some (normal_at o f i).
Proof.
  intros F H. unfold corner_normal, normal_at.
  assert (A : forall j, nth_error (fVerts f) (j mod length (fVerts f)) = Some (around f j)).
  { intros j. unfold around. apply nth_error_nth'. apply Nat.mod_upper_bound. lia. }
  assert (B : forall j, zidx (oVerts o) (around f j) = Some (point o (around f j))).
  { intros j. apply point_zidx. rewrite Forall_forall in F. apply F. eapply nth_error_In. apply A. }
  assert (C : nth i (fVerts f) 0 = around f i) by (unfold around; rewrite Nat.mod_small by lia; reflexivity).
  destruct (nth_error (fNormals f) i) as [[n|]|]; [reflexivity| |];
    (replace (i + length (fVerts f) - 1)%nat with (i + (length (fVerts f) - 1))%nat by lia; rewrite !A, C, !B; reflexivity).
Qed.

Lemma add_at_spec (ns : list (vec3 T)) v n : 0 <= v < Z.of_nat (length ns) ->
  exists ns', add_at ns v n = Some ns' /\ length ns' = length ns /\
    forall k, zidx ns' k = if k =? v then option_map (fun m => v3add m n) (zidx ns k) else zidx ns k.
Proof.
  intros H. unfold add_at. destruct (zidx ns v) as [m|] eqn:E; [|apply zidx_None in E; lia].
  exists (list_set ns (Z.to_nat v) (v3add m n)). split; [reflexivity|]. split; [apply list_set_length|]. intros k.
  rewrite list_set_zidx by lia. destruct (Z.eqb_spec k v) as [->|]; [rewrite E|]; reflexivity.
Qed.

(** Adding normals to a vertex. *)
Definition plus (l : list (vec3 T)) (m : vec3 T) : vec3 T := fold_left v3add l m.

Lemma add_corners_spec (o : object T) (f : face T) : Forall (fun v => 0 <= v < Z.of_nat (length (oVerts o))) (fVerts f) ->
  forall verts done ns, fVerts f = done ++ verts -> length ns = length (oVerts o) ->
  exists ns', add_corners (oVerts o) f (length done) verts ns = Some ns' /\ length ns' = length ns /\
    forall v, zidx ns' v = option_map (plus (flat_map (fun i => if around f i =? v then [normal_at o f i] else [])
                                                      (seq (length done) (length verts)))) (zidx ns v).
Proof.
  intros F. induction verts as [|x verts IH]; intros done ns E L; cbn [add_corners length seq flat_map].
  - exists ns. split; [reflexivity|]. split; [reflexivity|]. intros v. destruct (zidx ns v); reflexivity.
  - assert (Hx : nth (length done) (fVerts f) 0 = x) by (rewrite E; apply nth_middle).
    assert (Hl : (length done < length (fVerts f))%nat) by (rewrite E, app_length; cbn; lia).
    pose proof (corner_normal_at o f (length done) F Hl) as Hc. rewrite Hx in Hc. rewrite Hc.
    assert (Bx : 0 <= x < Z.of_nat (length ns)).
    { rewrite L. rewrite Forall_forall in F. apply F. rewrite E. apply in_app_iff. right. left. reflexivity. }
    destruct (add_at_spec ns x (normal_at o f (length done)) Bx) as (ns1 & -> & L1 & Z1).
    destruct (IH (done ++ [x]) ns1) as (ns2 & E2 & L2 & Z2); [rewrite <- app_assoc; exact E|congruence|].
    rewrite app_length in E2, Z2. cbn [length] in E2, Z2. rewrite Nat.add_1_r in E2, Z2. exists ns2. split; [exact E2|]. split; [congruence|].
    intros v. rewrite Z2, Z1.
    assert (Ha : around f (length done) = x) by (unfold around; rewrite Nat.mod_small by lia; exact Hx).
    rewrite Ha, (Z.eqb_sym v x). destruct (x =? v); [|reflexivity]. destruct (zidx ns v); reflexivity.
Qed.

Lemma add_faces_spec (o : object T) fs : Forall (fun f => Forall (fun v => 0 <= v < Z.of_nat (length (oVerts o))) (fVerts f)) fs ->
  forall ns, length ns = length (oVerts o) ->
  exists ns', add_faces (oVerts o) fs ns = Some ns' /\ length ns' = length ns /\
    forall v, zidx ns' v = option_map (plus (flat_map (fun f => flat_map (fun i => if around f i =? v then [normal_at o f i] else [])
                                                      (seq 0 (length (fVerts f)))) fs)) (zidx ns v).
Proof.
  intros F. induction F as [|f fs Hf F IH]; intros ns L; cbn [add_faces flat_map].
  - exists ns. split; [reflexivity|]. split; [reflexivity|]. intros v. destruct (zidx ns v); reflexivity.
  - destruct (add_corners_spec o f Hf (fVerts f) [] ns eq_refl L) as (ns1 & E1 & L1 & Z1). cbn [length] in E1. rewrite E1.
    destruct (IH ns1) as (ns2 & E2 & L2 & Z2); [congruence|]. exists ns2. split; [exact E2|]. split; [congruence|].
    intros v. rewrite Z2, Z1. destruct (zidx ns v); [|reflexivity]. cbn [option_map length]. unfold plus. rewrite fold_left_app. reflexivity.
Qed.

Theorem smooth_normals_spec (o : object T) : valid_object o ->
  exists ns, smooth_normals o = Some ns /\ length ns = length (oVerts o) /\
    forall v, 0 <= v < Z.of_nat (length (oVerts o)) -> zidx ns v = Some (v3normalize (v3sum (normals_around o v))).
Proof.
  intros V. unfold smooth_normals.
  destruct (add_faces_spec o (oFaces o) V (repeat v3zero (length (oVerts o))) (repeat_length _ _)) as (ns & E & L & Z0).
  rewrite E. cbn [option_map]. exists (map v3normalize ns). split; [reflexivity|]. rewrite map_length, L, repeat_length. split; [reflexivity|].
  intros v Hv. specialize (Z0 v). assert (R : zidx (repeat (v3zero (T := T)) (length (oVerts o))) v = Some v3zero).
  { apply zidx_Some. split; [lia|]. rewrite nth_error_repeat by lia. reflexivity. }
  rewrite R in Z0. cbn [option_map] in Z0. apply zidx_Some in Z0 as (_ & Z0). apply zidx_Some. split; [lia|].
  rewrite (map_nth_error _ _ _ Z0). reflexivity.
Qed.

Theorem fixh_normals_spec (o : object T) : valid_object o ->
  exists o' ns, fixh_normals o = Some o' /\ smooth_normals o = Some ns /\ oVerts o' = oVerts o /\
    Forall2 (fun f f' => fVerts f' = fVerts f /\ fMaterial f' = fMaterial f /\ fUVs f' = fUVs f /\ fUID f' = fUID f /\
       fNormals f' = if complete f then fNormals f else map (zidx ns) (fVerts f)) (oFaces o) (oFaces o').
Proof.
  intros V. destruct (smooth_normals_spec o V) as (ns & E & L & _). unfold fixh_normals. rewrite E.
  assert (G : exists fs', fix_normals (Some ns) (oFaces o) = Some fs' /\
    Forall2 (fun f f' => fVerts f' = fVerts f /\ fMaterial f' = fMaterial f /\ fUVs f' = fUVs f /\ fUID f' = fUID f /\
       fNormals f' = if complete f then fNormals f else map (zidx ns) (fVerts f)) (oFaces o) fs').
  { clear E. unfold valid_object in V. induction V as [|f fs Hf V IH]; cbn [fix_normals]; [exists []; split; [reflexivity|constructor]|].
    destruct IH as (fs' & E' & F'). rewrite E'. fold (complete f). destruct (complete f) eqn:C.
    - cbn [option_map]. exists (f :: fs'). split; [reflexivity|]. constructor; [|exact F']. rewrite C. auto.
    - assert (A : exists l, all_some (zidx ns) (fVerts f) = Some l /\ map Some l = map (zidx ns) (fVerts f)).
      { clear C. induction Hf as [|v l Hv Hf IHl]; [exists []; split; reflexivity|]. destruct IHl as (r & E1 & E2). cbn [all_some map].
        destruct (zidx ns v) as [n|] eqn:En; [|apply zidx_None in En; lia]. rewrite E1. exists (n :: r). split; [reflexivity|].
        cbn [map]. rewrite E2. reflexivity. }
      destruct A as (l & -> & E2). exists (set_normals f (map Some l) :: fs'). split; [reflexivity|]. constructor; [|exact F'].
      rewrite C, <- E2. repeat split; reflexivity. }
  destruct G as (fs' & -> & F). exists (set_faces o fs'), ns. cbn [option_map]. split; [reflexivity|]. split; [reflexivity|].
  destruct o; split; [reflexivity|exact F].
Qed.
End Proofs.

(** In the reals the normals have length one. *)
Local Open Scope R_scope.
Lemma normalize_unit (a : vec3 R) : vx (v3normalize a) * vx (v3normalize a) + vy (v3normalize a) * vy (v3normalize a) + vz (v3normalize a) * vz (v3normalize a) = 1.
Proof.
  destruct a as [x y z]. unfold v3normalize, v3len. cbn [vx vy vz nltb nzero none nadd nmul ndiv nsqrt RNum].
  assert (P : 0 <= x * x + y * y + z * z) by nra.
  destruct (Rltb 0 (sqrt (x * x + y * y + z * z))) eqn:E; cbn [vx vy vz].
  - apply MatrixLemmas.Rltb_true in E. set (l := sqrt (x * x + y * y + z * z)) in *.
    assert (L : l * l = x * x + y * y + z * z) by (apply sqrt_sqrt; exact P). field_simplify; [|lra].
    replace (x ^ 2 + y ^ 2 + z ^ 2) with (l ^ 2) by (simpl; lra). field. lra.
  - apply MatrixLemmas.Rltb_false in E. assert (S0 : sqrt (x * x + y * y + z * z) = 0) by (pose proof (sqrt_pos (x * x + y * y + z * z)); lra).
    apply sqrt_eq_0 in S0; [|exact P]. assert (y * y = 0) by nra. assert (z * z = 0) by nra. lra.
Qed.
Theorem smooth_normals_unit (o : object R) ns : smooth_normals o = Some ns ->
  Forall (fun n => vx n * vx n + vy n * vy n + vz n * vz n = 1) ns.
Proof.
  unfold smooth_normals. destruct (add_faces _ _ _) as [l|]; [|discriminate]. intros E. injection E as <-. apply Forall_forall.
  intros n H. apply in_map_iff in H as (m & <- & _). apply normalize_unit.
Qed.
