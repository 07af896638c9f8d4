(** C106: reusing geometry does not change what is drawn. *)
From Coq Require Import String List ZArith Bool Lia Reals Lra.
From Verif.Model Require Import Num NumR Vec Matrix Mqo MqoDoc Mmd2Mqo Mqo2Mmd Gltf Mqo2Gltf Mqo2GltfShared.
From Verif Require Import Spec.GeomSpec Spec.GltfSpec Spec.SharedSpec Proofs.MatrixLemmas Proofs.SharedLoop.
Import ListNotations.
Local Open Scope R_scope.

(** Documents whose objects with equal keys are copies at different places: with the option every
    node exists and has the same joints; what it draws is what is drawn without, in the same
    materials and texture coordinates, but moved by a vector that depends on the place of the
    first copy and on the scale. *)
Theorem C106_offset : forall scale centi eps unlit acc0 acc0uv bones node_of mmap morphs os ns0,
  reusable mmap os ->
  conv_shared scale centi eps unlit acc0 acc0uv false false bones node_of mmap morphs os os [] = Some ns0 ->
  exists ns, conv_shared scale centi eps unlit acc0 acc0uv true false bones node_of mmap morphs os os [] = Some ns /\ length ns = length os /\
    forall i o n0 n, nth_error os i = Some o -> nth_error ns0 i = Some n0 -> nth_error ns i = Some n ->
      snJoints n = snJoints n0 /\ (oVisible (soObj o) = false -> drawn n = [] /\ drawn n0 = []) /\
      (oVisible (soObj o) = true -> exists v, displaced scale os o v /\ drawn n = moved v (drawn n0)).
Proof. exact reuse_offset. Qed.
Print Assumptions C106_offset.

(** The full statement would be without the third hypothesis and for all documents. *)
Theorem C106_same_partial : forall scale centi eps unlit acc0 acc0uv bones node_of mmap morphs os ns0,
  reusable mmap os ->
  conv_shared scale centi eps unlit acc0 acc0uv false false bones node_of mmap morphs os os [] = Some ns0 ->
  (scale = 1 \/ forall k o0 t0, reused os k -> first_with os k o0 -> oInternal (soObj o0) = Some t0 -> mat_apply t0 origin = origin) ->
  exists ns, conv_shared scale centi eps unlit acc0 acc0uv true false bones node_of mmap morphs os os [] = Some ns /\ length ns = length ns0 /\
    forall i n0 n, nth_error ns0 i = Some n0 -> nth_error ns i = Some n -> snJoints n = snJoints n0 /\ drawn n = drawn n0.
Proof. exact reuse_same. Qed.
Print Assumptions C106_same_partial.

(** Without the options nodes have the meshes of [ConvertObject] (C39 to C44) and no matrix. *)
Theorem C106_without : forall (T : Type) (N : Num T) (scale centi eps : T) unlit acc0 acc0uv bones node_of mmap morphs (os : list (sobj T)) ns,
  conv_shared scale centi eps unlit acc0 acc0uv false false bones node_of mmap morphs os os [] = Some ns ->
  Forall2 (fun o n => if oVisible (soObj o)
     then exists mo mesh, morphs (soObj o) = Some mo /\ convert_object scale centi eps unlit (soObj o) bones node_of mo mmap = Some (mesh, snJoints n) /\
          snMesh n = (match gmPrims mesh with [] => None | _ => Some mesh end) /\ snMatrix n = None
     else n = mkSN None [] None) os ns.
Proof. intros. eapply plain_nodes. eassumption. Qed.
Print Assumptions C106_without.
Theorem C106_total : forall (T : Type) (N : Num T) (scale centi eps : T) unlit acc0 acc0uv objs sets bones base mmap (os : list (sobj T)),
  Forall (fun o => exportable objs sets bones (soObj o)) os ->
  exists ns, conv_shared scale centi eps unlit acc0 acc0uv false false bones (bone_node base bones) mmap (morph_objects objs sets) os os [] = Some ns.
Proof. intros. eapply plain_total. eassumption. Qed.
Print Assumptions C106_total.

(** Only nodes without a matrix of their own have children, with or without the options, so the
    matrix of a node is all that places its mesh. *)
Theorem C106_parents : forall (T : Type) (N : Num T) (scale centi eps : T) unlit acc0 acc0uv reuse lights ign bones node_of mmap morphs (os : list (sobj T)) g ns g',
  shared_nodes scale centi eps unlit acc0 acc0uv reuse lights ign bones node_of mmap morphs os g = Some (ns, g') ->
  forall p c, In (p, c) (grEdges g') -> In (p, c) (grEdges g) \/ exists n, nth_error ns p = Some n /\ default_matrix n = true.
Proof. intros. eapply parents_plain; eassumption. Qed.
Print Assumptions C106_parents.
Theorem C106_unmoved : forall (n : snode R) v, default_matrix n = true -> placed (snMatrix n) v = v.
Proof. exact default_placed. Qed.
Print Assumptions C106_unmoved.

(** *** Examples *)

Section Build.
Context {T : Type} {N : Num T}.
(** A triangle or two, with materials [m]. *)
Definition C106_face (vs : list Z) (m : Z) : face T :=
  mkFace 0 vs m [mkV2 nzero nzero; mkV2 none nzero; mkV2 none none] [Some (mkV3 nzero nzero none); Some (mkV3 nzero nzero none); Some (mkV3 nzero nzero none)].
Definition C106_pts : list (vec3 T) := [mkV3 nzero nzero nzero; mkV3 none nzero nzero; mkV3 none none nzero; mkV3 nzero none nzero].
Definition C106_obj (name : string) (t : mat4 T) (mats : list Z) : sobj T :=
  mkSO (mkObj 0 name (map (mat_apply t) C106_pts)
          (map (fun p => C106_face (fst p) (snd p)) (combine [[0; 1; 2]; [0; 2; 3]]%Z mats))
          true false 0 false 1 nzero 0 0 0 nzero None None None None [] (Some t)) (Some "mesh"%string) false.
Definition C106_at (x y z : T) : mat4 T := mat_translate x y z.
End Build.

(** Three copies with different materials, of which the first is at the origin. *)
Definition C106_os : list (sobj R) :=
  [C106_obj "a" (mkM 0 2 0 0 (-2) 0 0 0 0 0 2 0 0 0 0 1) [0; 1]%Z; C106_obj "b" (C106_at 5 0 0) [1; 0]%Z; C106_obj "c" (mat_scale 3 3 3) [2; 1]%Z].
Lemma C106_copies na a ma nb b mb : In ma [[0; 1]; [1; 0]; [2; 1]]%Z -> In mb [[0; 1]; [1; 0]; [2; 1]]%Z ->
  copies (fun z => Some z) (soObj (C106_obj na a ma)) (soObj (C106_obj nb b mb)) a b.
Proof.
  intros Ha Hb. split; [exists C106_pts; split; reflexivity|].
  assert (exists x y, ma = [x; y] /\ x <> y) as (x & y & -> & Nx). { cbn in Ha. destruct Ha as [<-|[<-|[<-|[]]]]; do 2 eexists; (split; [reflexivity|lia]). }
  assert (exists x y, mb = [x; y] /\ x <> y) as (z & w & -> & Nz). { cbn in Hb. destruct Hb as [<-|[<-|[<-|[]]]]; do 2 eexists; (split; [reflexivity|lia]). }
  split; [unfold C106_obj; cbn [soObj oFaces combine map fst snd]; repeat constructor; discriminate|].
  intros i j f0 f g0 g. unfold C106_obj. cbn [soObj oFaces combine map fst snd].
  destruct i as [|[|i]], j as [|[|j]]; cbn [nth_error]; intros H1 H2 H3 H4; try (destruct i; discriminate); try (destruct j; discriminate);
    injection H1 as <-; injection H2 as <-; injection H3 as <-; injection H4 as <-; cbn [C106_face fMaterial]; split; intros Q; try reflexivity; injection Q as Q; congruence.
Qed.
Lemma C106_det (m : mat4 R) x : mat_det m = x -> x <> 0 -> mat_det m <> 0.
Proof. intros ->. auto. Qed.
Lemma C106_reusable : reusable (fun z => Some z) C106_os.
Proof.
  assert (G : forall o, In o C106_os -> exists n t m, o = C106_obj n t m /\ affine t /\ mat_det t <> 0 /\ In m [[0; 1]; [1; 0]; [2; 1]]%Z).
  { intros o [<-|[<-|[<-|[]]]]; do 3 eexists; (split; [reflexivity|]); (split; [unfold affine, C106_at, mat_translate, mat_scale; mproj; rnum; repeat split; reflexivity|]);
      (split; [|cbn; tauto]).
    - apply C106_det with (x := 8); [|lra]. unfold mat_det, mat_t11, mat_t12, mat_t13, mat_t14; mproj; rnum; ring.
    - apply C106_det with (x := 1); [|lra]. unfold mat_det, mat_t11, mat_t12, mat_t13, mat_t14, C106_at, mat_translate; mproj; rnum; ring.
    - apply C106_det with (x := 27); [|lra]. unfold mat_det, mat_t11, mat_t12, mat_t13, mat_t14, mat_scale; mproj; rnum; ring. }
  intros k a b _ Ha Hb _ _ _ _. destruct (G a Ha) as (na & ta & ma & -> & Aa & Da & Ma). destruct (G b Hb) as (nb & tb & mb & -> & Ab & Db & Mb).
  exists ta, tb. split; [reflexivity|]. split; [reflexivity|]. repeat (split; [assumption|]). apply C106_copies; assumption.
Qed.
Lemma C106_exportable n (t : mat4 R) x y : exportable [] [] [] (soObj (C106_obj n t [x; y])).
Proof.
  split; [cbn; lia|]. split; [|split; [|split]].
  - unfold well_indexed. cbn [soObj C106_obj oFaces oVerts combine map fst snd]. repeat constructor; cbn; try lia; right; reflexivity.
  - cbn [soObj C106_obj oFaces combine map fst snd]. repeat constructor; cbn; intros _ H; repeat (destruct H as [H|H]; [discriminate|]); destruct H.
  - intros l e [].
  - intros names u H _. exfalso. destruct H as (? & ? & ? & H & _). symmetry in H. exact (app_cons_not_nil _ _ _ (eq_sym H)).
Qed.
Example C106_example : reusable (fun z => Some z) C106_os /\ reused C106_os "mesh" /\
  (exists ns, conv_shared (1 / 1000) (1 / 100) (1 / 10000) false [] [] false false [] (@bone_node R 3 []) (fun z => Some z) (morph_objects [] []) C106_os C106_os [] = Some ns) /\
  (forall k o0 t0, reused C106_os k -> first_with C106_os k o0 -> oInternal (soObj o0) = Some t0 -> mat_apply t0 origin = origin).
Proof.
  split; [exact C106_reusable|]. split; [exists [], (C106_obj "a" (mkM 0 2 0 0 (-2) 0 0 0 0 0 2 0 0 0 0 1) [0; 1]%Z), [], (C106_obj "b" (C106_at 5 0 0) [1; 0]%Z), [C106_obj "c" (mat_scale 3 3 3) [2; 1]%Z]; repeat split|].
  split.
  - apply C106_total. apply Forall_forall. intros o [<-|[<-|[<-|[]]]]; apply C106_exportable.
  - intros k o0 t0 _ (l & r & E & K & _ & F) I0. destruct l as [|x l].
    + injection E as <- _. cbn in I0. injection I0 as <-. unfold mat_apply, origin; mproj; rnum; comps; ring.
    + assert (In o0 C106_os) as Hin by (rewrite E; right; apply in_or_app; right; left; reflexivity).
      assert (k = "mesh"%string) as -> by (destruct Hin as [<-|[<-|[<-|[]]]]; cbn in K; congruence).
      injection E as <- _. inversion F as [|? ? F1 F2]; subst. specialize (F1 eq_refl). discriminate.
Qed.

(** *** Counterexamples, in whole numbers *)

Definition C106_run (reuse : bool) (mmap : Z -> option Z) (scale : Z) (os : list (sobj Z)) : option (list (snode Z)) :=
  conv_shared scale 0%Z 1%Z false [] [] reuse false [] (fun _ => None) mmap (fun _ => Some []) os os [].
Definition C106_shown (o : option (list (snode Z))) : option (list (list (option Z * list (option (vec3 Z))))) :=
  option_map (map (fun n => map (fun p => (fst p, map fst (snd p))) (drawn n))) o.
(** If the first copy is not at the origin and the scale is not 1, all copies are displaced. *)
Theorem C106_place_refuted : exists os : list (sobj Z), os = [C106_obj "a" (C106_at 5 0 0)%Z [0%Z]; C106_obj "b" (C106_at 0 7 0)%Z [0%Z]] /\
  C106_shown (C106_run false Some 2 os) =
    Some [[(Some 0%Z, [Some (mkV3 12 2 0); Some (mkV3 12 0 0); Some (mkV3 10 0 0)]%Z)]; [(Some 0%Z, [Some (mkV3 2 16 0); Some (mkV3 2 14 0); Some (mkV3 0 14 0)]%Z)]] /\
  C106_shown (C106_run true Some 2 os) =
    Some [[(Some 0%Z, [Some (mkV3 17 2 0); Some (mkV3 17 0 0); Some (mkV3 15 0 0)]%Z)]; [(Some 0%Z, [Some (mkV3 7 16 0); Some (mkV3 7 14 0); Some (mkV3 5 14 0)]%Z)]].
Proof. eexists. split; [reflexivity|]. split; vm_compute; reflexivity. Qed.
Print Assumptions C106_place_refuted.
(** A copy with fewer materials than the first loses faces. *)
Theorem C106_lost_refuted : exists os : list (sobj Z), os = [C106_obj "a" mat_id [0; 1]%Z; C106_obj "b" (C106_at 0 7 0)%Z [2; 2]%Z] /\
  option_map (map (map (fun p => (fst p, length (snd p))))) (C106_shown (C106_run false Some 1 os)) = Some [[(Some 0%Z, 3%nat); (Some 1%Z, 3%nat)]; [(Some 2%Z, 6%nat)]] /\
  option_map (map (map (fun p => (fst p, length (snd p))))) (C106_shown (C106_run true Some 1 os)) = Some [[(Some 0%Z, 3%nat); (Some 1%Z, 3%nat)]; [(Some 2%Z, 3%nat)]].
Proof. eexists. split; [reflexivity|]. split; vm_compute; reflexivity. Qed.
Print Assumptions C106_lost_refuted.
(** A copy with more materials crashes. *)
Theorem C106_crash_refuted : exists os : list (sobj Z), os = [C106_obj "a" mat_id [0; 0]%Z; C106_obj "b" (C106_at 0 7 0)%Z [2; 1]%Z] /\
  C106_run false Some 1 os <> None /\ C106_run true Some 1 os = None.
Proof. eexists. split; [reflexivity|]. split; vm_compute; [discriminate|reflexivity]. Qed.
Print Assumptions C106_crash_refuted.
(** An object with a material that is not exported does not share vertices, but gets the matrix:
    it is moved twice. *)
Theorem C106_twice_refuted : exists os : list (sobj Z), os = [C106_obj "a" mat_id [0; 0]%Z; C106_obj "b" (C106_at 0 7 0)%Z [0; 9]%Z] /\
  let mm := fun z => if (z =? 9)%Z then None else Some z in
  option_map (fun l => nth 1 l []) (C106_shown (C106_run false mm 1 os)) = Some [(Some 0%Z, [Some (mkV3 1 8 0); Some (mkV3 1 7 0); Some (mkV3 0 7 0)]%Z)] /\
  option_map (fun l => nth 1 l []) (C106_shown (C106_run true mm 1 os)) = Some [(Some 0%Z, [Some (mkV3 1 15 0); Some (mkV3 1 14 0); Some (mkV3 0 14 0)]%Z)].
Proof. eexists. split; [reflexivity|]. split; vm_compute; reflexivity. Qed.
Print Assumptions C106_twice_refuted.
