(** Object-level operations of [mqo]: Flip, Triangulate, ApplyTransform. *)
From Coq Require Import List ZArith Lia Permutation Reals Lra.
From Verif.Model Require Import Num NumR Vec Matrix Triangulate Mqo.
From Verif.Spec Require Import Surface GeomSpec MqoSpec.
From Verif.Proofs Require Import SurfaceLemmas TriangulateProofs MatrixLemmas.
Import ListNotations.
Local Open Scope nat_scope.

(** ** Flip *)

Lemma list_set_mid {A} (a b : list A) x y : list_set (a ++ x :: b) (length a) y = a ++ y :: b.
Proof.
  unfold list_set. rewrite firstn_app, Nat.sub_diag, firstn_all, firstn_O, app_nil_r.
  rewrite skipn_app, skipn_all, Nat.sub_diag. reflexivity.
Qed.

Lemma swap_loop_spec {A} : forall (fuel : nat) (a m b : list A) i j,
  i = length a -> j + 1 = length a + length m -> length a = length b -> length m <= fuel ->
  m <> [] ->
  swap_loop fuel i j (a ++ m ++ b) = a ++ rev m ++ b.
Proof.
  induction fuel as [|fuel IH]; intros a m b i j Hi Hj Hab Hf Hm.
  { destruct m; [congruence | cbn in Hf; lia]. }
  cbn [swap_loop].
  destruct (Nat.ltb_spec i j) as [L|L].
  - (* m = x :: r ++ [y] *)
    destruct m as [|x m]; [congruence|].
    destruct (exists_last (l := m)) as (r & y & ->).
    { intro; subst m; cbn in Hj; lia. }
    cbn [length] in Hj, Hf. rewrite app_length in Hj, Hf; cbn [length] in Hj, Hf.
    replace (a ++ (x :: r ++ [y]) ++ b) with (a ++ x :: (r ++ y :: b))
      by (cbn [app]; rewrite <- app_assoc; reflexivity).
    subst i. rewrite nth_error_mid.
    replace (a ++ x :: r ++ y :: b) with ((a ++ x :: r) ++ y :: b) by (rewrite <- app_assoc; reflexivity).
    replace j with (length (a ++ x :: r)) at 1 by (rewrite app_length; cbn [length]; lia).
    rewrite nth_error_mid.
    replace ((a ++ x :: r) ++ y :: b) with (a ++ x :: (r ++ y :: b)) by (rewrite <- app_assoc; reflexivity).
    rewrite list_set_mid.
    replace (a ++ y :: r ++ y :: b) with ((a ++ y :: r) ++ y :: b) by (rewrite <- app_assoc; reflexivity).
    replace j with (length (a ++ y :: r)) at 2 by (rewrite app_length; cbn [length]; lia).
    rewrite list_set_mid.
    replace ((a ++ y :: r) ++ x :: b) with ((a ++ [y]) ++ r ++ (x :: b))
      by (rewrite <- !app_assoc; reflexivity).
    cbn [rev]. rewrite rev_app_distr. cbn [rev app].
    destruct r as [|z r].
    + cbn [rev app]. destruct fuel; cbn [swap_loop]; [rewrite <- app_assoc; reflexivity|].
      destruct (Nat.ltb_spec (S (length a)) (j - 1)); [cbn in Hj; lia|].
      rewrite <- app_assoc; reflexivity.
    + rewrite IH.
      * rewrite <- !app_assoc. reflexivity.
      * rewrite app_length; cbn; lia.
      * rewrite app_length; cbn [length] in *; lia.
      * rewrite app_length; cbn [length]; lia.
      * cbn [length] in *; lia.
      * discriminate.
  - destruct m as [|x m]; [congruence|]. destruct m as [|y m]; [reflexivity|cbn in Hj; lia].
Qed.

Lemma swap_all_rev {A} (l : list A) : swap_all l = rev l.
Proof.
  unfold swap_all. destruct l as [|x l]; [reflexivity|].
  pose proof (swap_loop_spec (length (x :: l)) [] (x :: l) [] 0 (length (x :: l) - 1)) as H.
  rewrite !app_nil_r in H. apply H; cbn [length]; try lia; discriminate.
Qed.

Lemma flip_rev {T} (f : face T) :
  flip f = mkFace (fUID f) (rev (fVerts f)) (fMaterial f) (rev (fUVs f)) (rev (fNormals f)).
Proof. unfold flip. rewrite !swap_all_rev. reflexivity. Qed.

Lemma flip_involutive {T} (f : face T) : flip (flip f) = f.
Proof. rewrite !flip_rev; cbn. rewrite !rev_involutive. destruct f; reflexivity. Qed.

Lemma nth_error_rev {A} (l : list A) i : i < length l ->
  nth_error (rev l) i = nth_error l (length l - 1 - i).
Proof.
  intro H. destruct l as [|x0 l]; [cbn in H; lia|].
  rewrite (nth_error_nth' (rev (x0 :: l)) x0) by (rewrite rev_length; exact H).
  rewrite rev_nth by exact H.
  rewrite (nth_error_nth' (x0 :: l) x0) by lia. f_equal. f_equal. lia.
Qed.

Definition swap_pair {A B} (p : A * B) : B * A := (snd p, fst p).

Fixpoint steps {A} (l : list A) : list (A * A) :=
  match l with
  | x :: ((y :: _) as r) => (x, y) :: steps r
  | _ => []
  end.

Lemma path_edges_steps {A} (f : A) l : l <> [] -> path_edges f l = steps (l ++ [f]).
Proof.
  induction l as [|x l IH]; [congruence|]. intros _. destruct l as [|y l]; [reflexivity|].
  change (path_edges f (x :: y :: l)) with ((x, y) :: path_edges f (y :: l)).
  rewrite IH by discriminate. reflexivity.
Qed.

Lemma steps_snoc {A} (l : list A) x y : steps ((l ++ [x]) ++ [y]) = steps (l ++ [x]) ++ [(x, y)].
Proof.
  induction l as [|z l IH]; [reflexivity|].
  destruct l as [|w l]; [reflexivity|].
  change (steps (((z :: w :: l) ++ [x]) ++ [y])) with ((z, w) :: steps (((w :: l) ++ [x]) ++ [y])).
  rewrite IH. reflexivity.
Qed.

Lemma steps_rev {A} (l : list A) : steps (rev l) = rev (map swap_pair (steps l)).
Proof.
  induction l as [|x l IH]; [reflexivity|].
  destruct l as [|y l]; [reflexivity|].
  cbn [rev] in *. rewrite steps_snoc, IH. reflexivity.
Qed.

Lemma cycle_edges_rev {A} (l : list A) :
  Permutation (cycle_edges (rev l)) (map swap_pair (cycle_edges l)).
Proof.
  destruct l as [|x l]; [reflexivity|]. cbn [rev].
  etransitivity; [apply Permutation_sym, cycle_edges_rot1|].
  unfold cycle_edges. rewrite !path_edges_steps by discriminate.
  replace ((x :: rev l) ++ [x]) with (rev ((x :: l) ++ [x])).
  - rewrite steps_rev. apply Permutation_sym, Permutation_rev.
  - rewrite rev_app_distr. reflexivity.
Qed.

(** ** Triangulate *)

Lemma all_some_Forall2 {A B} (g : A -> option B) l ys :
  all_some g l = Some ys <-> Forall2 (fun x y => g x = Some y) l ys.
Proof.
  revert ys; induction l as [|x l IH]; intros ys; cbn [all_some].
  - split; [intros [= <-]; constructor | intro H; inversion H; reflexivity].
  - destruct (g x) as [y|] eqn:E.
    + destruct (all_some g l) as [zs|] eqn:F.
      * split.
        -- intros [= <-]. constructor; [exact E | apply IH; reflexivity].
        -- intro H; inversion H; subst. f_equal. f_equal; [congruence|].
           assert (K : Some zs = Some l') by (apply IH; assumption). congruence.
      * split; [discriminate|]. intro H; inversion H; subst.
        assert (K : None = Some l') by (apply IH; assumption). discriminate.
    + split; [discriminate|]. intro H; inversion H; subst. congruence.
Qed.

Lemma all_some_exists {A B} (g : A -> option B) l :
  Forall (fun x => exists y, g x = Some y) l -> exists ys, all_some g l = Some ys.
Proof.
  induction 1 as [|x l [y Hy] _ [ys IH]]; [exists []; reflexivity|].
  exists (y :: ys). cbn [all_some]. rewrite Hy, IH. reflexivity.
Qed.

Lemma zidx_ok {A} (l : list A) i : (0 <= i < Z.of_nat (length l))%Z -> exists x, zidx l i = Some x.
Proof.
  intro H. unfold zidx. destruct (Z.ltb_spec i 0); [lia|].
  destruct (nth_error l (Z.to_nat i)) eqn:E; [eauto|]. apply nth_error_None in E. lia.
Qed.

Lemma pick3_ok {A} (l : list A) t : tri_corners_in (seq 0 (length l)) t ->
  exists x y z, pick3 l t = Some [x; y; z] /\ at_corners l [x; y; z] t.
Proof.
  destruct t as [[a b] c]; cbn. rewrite !in_seq. intros (Ha & Hb & Hc).
  destruct (nth_error l a) as [x|] eqn:E1; [|apply nth_error_None in E1; lia].
  destruct (nth_error l b) as [y|] eqn:E2; [|apply nth_error_None in E2; lia].
  destruct (nth_error l c) as [z|] eqn:E3; [|apply nth_error_None in E3; lia].
  exists x, y, z. split; [reflexivity|]. right. exists x, y, z. repeat split; assumption.
Qed.

Lemma pick3_opt {A} (l : list A) n t : (l = [] \/ length l = n) -> tri_corners_in (seq 0 n) t ->
  exists r, (match l with [] => Some [] | _ => pick3 l t end) = Some r /\ at_corners l r t.
Proof.
  intros H Ht. destruct l as [|x l].
  - exists []. split; [reflexivity|]. destruct t as [[a b] c]; left; split; reflexivity.
  - destruct H as [H|H]; [discriminate|]. rewrite <- H in Ht.
    destruct (pick3_ok _ _ Ht) as (y & z & w & E & C). exists [y; z; w]. split; assumption.
Qed.

Section TriObj.
Context {T : Type} {N : Num T}.

Lemma sub_face_ok nv (f : face T) t : face_ok nv f -> tri_corners_in (seq 0 (length (fVerts f))) t ->
  exists g, sub_face f t = Some g /\ triangle_of f g t.
Proof.
  intros (_ & HU & HN) Ht. unfold sub_face.
  destruct (pick3_ok _ _ Ht) as (x & y & z & E & C). rewrite E.
  destruct (pick3_opt _ _ _ HU Ht) as (us & EU & CU). rewrite EU.
  destruct (pick3_opt _ _ _ HN Ht) as (ns & EN & CN). rewrite EN.
  eexists; split; [reflexivity|]. unfold triangle_of; cbn.
  split; [exists x, y, z; reflexivity|]. repeat split; assumption.
Qed.

Lemma all_some_length {A B} (g : A -> option B) l ys : all_some g l = Some ys -> length ys = length l.
Proof. intro H. apply all_some_Forall2 in H. induction H; cbn; congruence. Qed.

Lemma triangulate_face_ok (vs : list (vec3 T)) (f : face T) : face_ok (length vs) f ->
  exists gs, triangulate_face vs f = Some gs /\ triangulates f gs.
Proof.
  intros OK. unfold triangulate_face.
  destruct (Nat.eqb_spec (length (fVerts f)) 3) as [E3|N3].
  - exists [f]. split; [reflexivity|]. unfold triangulates. rewrite E3.
    split; [reflexivity|]. split; [lia|]. intros _. exists [(0, 1, 2)].
    assert (TR : triangle_of f f (0, 1, 2)).
    { destruct OK as (_ & HU & HN). rewrite E3 in HU, HN.
      destruct (fVerts f) as [|x [|y [|z [|]]]] eqn:EV; try discriminate.
      unfold triangle_of. rewrite EV. split; [exists x, y, z; reflexivity|].
      split; [right; exists x, y, z; repeat split; reflexivity|].
      assert (AC : forall {A} (l : list A), l = [] \/ length l = 3 -> at_corners l l (0, 1, 2)).
      { intros A l [-> | H]; [left; split; reflexivity|].
        destruct l as [|a [|b [|c [|]]]]; try discriminate.
        right. exists a, b, c. repeat split; reflexivity. }
      split; [apply AC; exact HU|]. split; [apply AC; exact HN | reflexivity]. }
    split; [constructor; [exact TR | constructor]|].
    split; [constructor; [cbn; repeat split; congruence | constructor]|].
    exists []. cbn. apply Permutation_refl.
  - destruct (all_some_exists (zidx vs) (fVerts f)) as [poly EP].
    { destruct OK as (HV & _). eapply Forall_impl; [|exact HV]. cbn; intros v Hv. apply zidx_ok; exact Hv. }
    rewrite EP. pose proof (all_some_length _ _ _ EP) as LP.
    destruct (Nat.lt_ge_cases (length (fVerts f)) 3) as [L|G].
    + rewrite (triangulate_small poly) by lia. exists []. split; [reflexivity|].
      split; [cbn; lia|]. split; [reflexivity|]. lia.
    + destruct (triangulate_ok poly) as (ts & ET & LT & FT & DT); [lia|].
      rewrite ET. unfold ok_tri in FT. rewrite LP in *.
      destruct (all_some_exists (sub_face f) ts) as [gs EG].
      { eapply Forall_impl; [|exact FT]. cbn; intros t [_ Ht].
        destruct (sub_face_ok (length vs) f t OK) as (g & Eg & _); [exact Ht | eauto]. }
      exists gs. split; [exact EG|].
      pose proof (all_some_length _ _ _ EG) as LG.
      split; [lia|]. split; [lia|]. intros _. exists ts.
      split; [|split; [|exact DT]].
      * apply all_some_Forall2 in EG.
        clear - EG FT OK. revert FT. induction EG as [|t g ts gs Eg EG IH]; intros FT; [constructor|].
        inversion FT as [|? ? [_ Ht] FT']; subst.
        constructor; [|apply IH; exact FT'].
        destruct (sub_face_ok (length vs) f t OK Ht) as (g' & Eg' & TR). congruence.
      * eapply Forall_impl; [|exact FT]. cbn; intros t [Ht _]; exact Ht.
Qed.

Lemma triangulate_object_ok (o : object T) : Forall (face_ok (length (oVerts o))) (oFaces o) ->
  exists gss, triangulate_object o = Some (set_faces o (concat gss)) /\ Forall2 triangulates (oFaces o) gss.
Proof.
  intro H. unfold triangulate_object.
  assert (E : exists gss, all_some (triangulate_face (oVerts o)) (oFaces o) = Some gss /\ Forall2 triangulates (oFaces o) gss).
  { induction H as [|f fs OK _ (gss & E & F)]; [exists []; split; [reflexivity | constructor]|].
    destruct (triangulate_face_ok _ f OK) as (gs & Eg & Tg).
    exists (gs :: gss). cbn [all_some]. rewrite Eg, E. split; [reflexivity | constructor; assumption]. }
  destruct E as (gss & E & F). exists gss. rewrite E. split; [reflexivity | exact F].
Qed.
End TriObj.

(** ** ApplyTransform *)
Local Open Scope R_scope.

Definition linear3 (m : mat4 R) : Prop := affine m /\ m12 m = 0 /\ m13 m = 0 /\ m14 m = 0.
Definition rs_part (m : mat4 R) : mat4 R :=
  mkM (m0 m) (m1 m) (m2 m) (m3 m) (m4 m) (m5 m) (m6 m) (m7 m)
      (m8 m) (m9 m) (m10 m) (m11 m) 0 0 0 (m15 m).

Lemma rs_part_linear m : affine m -> linear3 (rs_part m).
Proof. intros (A & B & C & D). unfold linear3, affine, rs_part; mproj. repeat split; assumption. Qed.

Lemma rs_part_det m : affine m -> mat_det (rs_part m) = mat_det m.
Proof.
  intros (A & B & C & D); destruct m; mproj; subst.
  unfold mat_det, mat_t11, mat_t12, mat_t13, mat_t14, rs_part; mproj; rnum; ring.
Qed.

Lemma rs_part_mul a b : affine a -> affine b -> rs_part (mat_mul a b) = mat_mul (rs_part a) (rs_part b).
Proof.
  intros (A & B & C & D) (A' & B' & C' & D'); destruct a, b; mproj; subst.
  unfold mat_mul, rs_part; mproj; rnum; comps; ring.
Qed.

Lemma affine_inverse a : affine a -> mat_det a <> 0 -> affine (mat_inverse a).
Proof.
  intros (A & B & C & D) H. pose proof (mat_inverse_r a H) as E.
  remember (mat_inverse a) as i. destruct a, i; mproj; subst.
  unfold mat_mul, mat_id in E; mproj; rnum. injection E; intros. unfold affine; mproj.
  repeat split; lra.
Qed.

Lemma linear3_inverse a : linear3 a -> mat_det a <> 0 -> linear3 (mat_inverse a).
Proof.
  intros (AF & A & B & C) H. split; [apply affine_inverse; assumption|].
  pose proof (mat_inverse_l a H) as E. destruct AF as (A3 & A7 & A11 & A15).
  remember (mat_inverse a) as i. destruct a, i; mproj; subst.
  unfold mat_mul, mat_id in E; mproj; rnum. injection E; intros. repeat split; lra.
Qed.

Lemma linear3_transposed a : linear3 a -> linear3 (mat_transposed a).
Proof.
  intros ((A3 & A7 & A11 & A15) & A & B & C). unfold linear3, affine, mat_transposed; mproj.
  repeat split; assumption.
Qed.

Lemma normal_transform_eq m : normal_transform m = mat_transposed (mat_inverse (rs_part m)).
Proof. reflexivity. Qed.

Lemma normal_transform_linear m : affine m -> mat_det m <> 0 -> linear3 (normal_transform m).
Proof.
  intros A D. rewrite normal_transform_eq. apply linear3_transposed, linear3_inverse.
  - apply rs_part_linear; exact A.
  - rewrite rs_part_det; assumption.
Qed.

Lemma normal_transform_mul a b : affine a -> affine b -> mat_det a <> 0 -> mat_det b <> 0 ->
  normal_transform (mat_mul a b) = mat_mul (normal_transform a) (normal_transform b).
Proof.
  intros A B DA DB. rewrite !normal_transform_eq, rs_part_mul by assumption.
  rewrite mat_inverse_mul by (rewrite rs_part_det; assumption).
  apply mat_transposed_mul.
Qed.

Lemma map_map_opt {A} (g h k : A -> A) l : (forall x, h (g x) = k x) ->
  map (option_map h) (map (option_map g) l) = map (option_map k) l.
Proof.
  intro E. rewrite map_map. apply map_ext. intros [x|]; cbn; [rewrite E|]; reflexivity.
Qed.

Lemma apply_transform_compose (a b : mat4 R) (o : object R) :
  affine a -> affine b -> mat_det a <> 0 -> mat_det b <> 0 ->
  apply_transform b (apply_transform a o) = apply_transform (mat_mul b a) o.
Proof.
  intros A B DA DB.
  assert (L : forall vs vs' fs fs' i i', vs = vs' -> fs = fs' -> i = i' ->
    set_faces (set_internal (set_verts o vs) i) fs = set_faces (set_internal (set_verts o vs') i') fs')
    by (intros; subst; reflexivity).
  transitivity (set_faces (set_internal (set_verts o (map (mat_apply b) (map (mat_apply a) (oVerts o))))
     (option_map (mat_mul b) (option_map (mat_mul a) (oInternal o))))
     (map (fun f => mkFace (fUID f) (fVerts f) (fMaterial f) (fUVs f)
                      (map (option_map (mat_apply (normal_transform b))) (fNormals f)))
       (map (fun f => mkFace (fUID f) (fVerts f) (fMaterial f) (fUVs f)
                      (map (option_map (mat_apply (normal_transform a))) (fNormals f))) (oFaces o))));
    [reflexivity|].
  apply L.
  - rewrite map_map. apply map_ext. intro v. symmetry; apply mat_apply_mul; exact A.
  - rewrite map_map. apply map_ext. intro f. cbn [fUID fVerts fMaterial fUVs fNormals].
    apply (f_equal (mkFace (fUID f) (fVerts f) (fMaterial f) (fUVs f))).
    apply map_map_opt. intro n. rewrite normal_transform_mul by assumption.
    symmetry; apply mat_apply_mul. apply (normal_transform_linear a A DA).
  - cbn [oInternal set_verts]. destruct (oInternal o) as [m|]; cbn [option_map]; [|reflexivity].
    apply (f_equal Some). apply mat_mul_assoc.
Qed.

Lemma dot_transposed (m : mat4 R) u v : linear3 m ->
  v3dot (mat_apply (mat_transposed m) u) v = v3dot u (mat_apply m v).
Proof.
  intros ((A3 & A7 & A11 & A15) & A & B & C). destruct m, u, v; mproj; subst.
  unfold v3dot, mat_apply, mat_transposed; mproj; rnum; ring.
Qed.

Lemma apply_sub (m : mat4 R) u v :
  v3sub (mat_apply m u) (mat_apply m v) = mat_apply (rs_part m) (v3sub u v).
Proof. destruct m, u, v; unfold v3sub, mat_apply, rs_part; mproj; rnum; comps; ring. Qed.

Lemma normal_dot m n u v : affine m -> mat_det m <> 0 ->
  v3dot (mat_apply (normal_transform m) n) (v3sub (mat_apply m u) (mat_apply m v)) =
  v3dot n (v3sub u v).
Proof.
  intros A D. rewrite apply_sub, normal_transform_eq.
  assert (D' : mat_det (rs_part m) <> 0) by (rewrite rs_part_det; assumption).
  assert (L : linear3 (mat_inverse (rs_part m)))
    by (apply linear3_inverse; [apply rs_part_linear; exact A | exact D']).
  rewrite dot_transposed by exact L.
  rewrite <- mat_apply_mul by (apply rs_part_linear; exact A).
  rewrite mat_inverse_l, mat_apply_id by exact D'. reflexivity.
Qed.

Lemma normals_perpendicular (m : mat4 R) (o : object R) :
  affine m -> mat_det m <> 0 ->
  forall fi k f n i j u v,
  nth_error (oFaces o) fi = Some f -> nth_error (fNormals f) k = Some (Some n) ->
  nth_error (oVerts o) i = Some u -> nth_error (oVerts o) j = Some v ->
  v3dot n (v3sub u v) = 0 ->
  exists f' n' u' v',
    nth_error (oFaces (apply_transform m o)) fi = Some f' /\
    nth_error (fNormals f') k = Some (Some n') /\
    nth_error (oVerts (apply_transform m o)) i = Some u' /\
    nth_error (oVerts (apply_transform m o)) j = Some v' /\
    v3dot n' (v3sub u' v') = 0.
Proof.
  intros A D fi k f n i j u v Hf Hn Hi Hj P.
  exists (mkFace (fUID f) (fVerts f) (fMaterial f) (fUVs f)
            (map (option_map (mat_apply (normal_transform m))) (fNormals f))),
    (mat_apply (normal_transform m) n), (mat_apply m u), (mat_apply m v).
  assert (M : forall {X Y} (g : X -> Y) l k x, nth_error l k = Some x -> nth_error (map g l) k = Some (g x)).
  { intros X Y g l k' x E. rewrite nth_error_map, E. reflexivity. }
  split; [exact (M _ _ _ _ _ _ Hf)|]. split; [exact (M _ _ _ _ _ _ Hn)|].
  split; [exact (M _ _ _ _ _ _ Hi)|]. split; [exact (M _ _ _ _ _ _ Hj)|].
  rewrite normal_dot by assumption. exact P.
Qed.

Lemma apply_transform_effect {T} {N : Num T} (m : mat4 T) (o : object T) :
  let o' := apply_transform m o in
  oVerts o' = map (mat_apply m) (oVerts o) /\
  map (fun f => (fUID f, fVerts f, fMaterial f, fUVs f)) (oFaces o') =
    map (fun f => (fUID f, fVerts f, fMaterial f, fUVs f)) (oFaces o) /\
  map (fun f => map (fun n => match n with None => true | _ => false end) (fNormals f)) (oFaces o') =
    map (fun f => map (fun n => match n with None => true | _ => false end) (fNormals f)) (oFaces o) /\
  set_internal (set_faces (set_verts o' (oVerts o)) (oFaces o)) (oInternal o) = o.
Proof.
  unfold apply_transform; cbn. split; [reflexivity|].
  rewrite !map_map. split; [reflexivity|]. split; [|destruct o; reflexivity].
  apply map_ext; intro f; cbn. rewrite map_map. apply map_ext; intros [n|]; reflexivity.
Qed.

Local Open Scope nat_scope.
Lemma flip_corners {T} (f : face T) :
  length (fVerts (flip f)) = length (fVerts f) /\ fMaterial (flip f) = fMaterial f /\
  fUID (flip f) = fUID f /\
  (length (fUVs f) = length (fVerts f) -> length (fNormals f) = length (fVerts f) ->
   forall i, i < length (fVerts f) ->
   let j := length (fVerts f) - 1 - i in
   nth_error (fVerts (flip f)) i = nth_error (fVerts f) j /\
   nth_error (fUVs (flip f)) i = nth_error (fUVs f) j /\
   nth_error (fNormals (flip f)) i = nth_error (fNormals f) j).
Proof.
  rewrite flip_rev; cbn. rewrite rev_length.
  split; [reflexivity|]. split; [reflexivity|]. split; [reflexivity|]. intros HU HN i Hi.
  rewrite !nth_error_rev by lia. rewrite HU, HN. split; [reflexivity|]. split; reflexivity.
Qed.
Lemma flip_reverses {T} (f : face T) :
  Permutation (cycle_edges (fVerts (flip f)))
              (map (fun e => (snd e, fst e)) (cycle_edges (fVerts f))).
Proof. rewrite flip_rev; cbn. apply cycle_edges_rev. Qed.
