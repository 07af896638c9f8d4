(** C135: a PMX model saved as PMX again has the same skin. *)
From Coq Require Import String List ZArith Bool Lia Permutation Reals.
From Verif.Model Require Import Num NumR Vec Matrix Mqo MqoDoc Mmd2Mqo Mqo2Mmd.
From Verif Require Import Spec.MmdConvSpec Spec.Mqo2MmdSpec Spec.DrawnSpec Spec.FbxPmxSpec Spec.PmxPmxSpec Spec.PmxSkinSpec Proofs.PmxSkin.
From Verif Require Props.C33 Props.C35 Props.C134.
Import ListNotations.
Local Open Scope Z_scope.

(** Full statement: every corner of the second model has the weights that it had. Proved for models in which no vertex names a bone twice and no morph has the name of a mesh object:
    each face is there once, and its corners are at their places with the first four of their weights in the order of the bones, taken to percent and back. *)
Theorem C135_skin_partial : forall (T : Type) (N : Num T) (hundred facet : T) (shuffle : vmap -> vmap), (forall m, Permutation (shuffle m) m) ->
  forall (p : pmodel T) os bw sets, convert hundred facet shuffle p = Some (os, bw, sets) -> covers p -> Forall (fun f => length f = 3%nat) (pFaces p) ->
  (forall m, In m (pMorphs p) -> ~ mesh_name (phName m)) -> once p ->
  forall (move turn : vec3 T -> vec3 T) (dd : document T), Forall2 (moved_object move turn) os (dObjects dd) ->
  forall (scale centi : T) bones p' extra, map (@mtName T) (dMaterials dd) = map pmName (pMats p) ++ extra -> map (@bWeights T) bones = bw -> to_mmd scale centi dd bones sets = Some p' ->
  exists l, Permutation l (seq 0 (length (pFaces p))) /\ Forall2 (same_skin_face hundred centi scale move p p') l (combine (face_owners (pMats p')) (pFaces p')).
Proof. exact (fun T N => @pmx_pmx_skin T N). Qed.
Print Assumptions C135_skin_partial.

(** With exact numbers: a vertex with at most four bones has the same weights, but those that are not positive. *)
Theorem C135_exact_partial : forall (hundred facet : R) (shuffle : vmap -> vmap), (forall m, Permutation (shuffle m) m) ->
  forall (p : pmodel R) os bw sets, convert hundred facet shuffle p = Some (os, bw, sets) -> proper p -> Forall (fun f => length f = 3%nat) (pFaces p) ->
  (forall m, In m (pMorphs p) -> ~ mesh_name (phName m)) -> once p -> Forall (fun v => (length (pvBones v) <= 4)%nat) (pVerts p) ->
  forall (move turn : vec3 R -> vec3 R) (dd : document R), Forall2 (moved_object move turn) os (dObjects dd) ->
  forall (scale centi : R) bones p' extra, (hundred * centi = 1)%R -> map (@mtName R) (dMaterials dd) = map pmName (pMats p) ++ extra -> map (@bWeights R) bones = bw ->
  to_mmd scale centi dd bones sets = Some p' ->
  exists l, Permutation l (seq 0 (length (pFaces p))) /\
    Forall2 (fun fi ids => Forall2 (fun id id' => exists v v', zidx (pVerts p) id = Some v /\ zidx (pVerts p') id' = Some v' /\ NoDup (pvBones v') /\
        forall b w, In (b, w) (combine (pvBones v') (pvWeights v')) <-> In (b, w) (combine (pvBones v) (pvWeights v)) /\ (0 < w)%R) (nth fi (pFaces p) []) ids)
      l (map snd (combine (face_owners (pMats p')) (pFaces p'))).
Proof.
  intros hundred facet shuffle SP p os bw sets EC PR TH NM ON FO move turn dd OB scale centi bones p' extra HC MN BN EP.
  destruct (C135_skin_partial R RNum hundred facet shuffle SP p os bw sets EC (pr_covers p PR) TH NM ON move turn dd OB scale centi bones p' extra MN BN EP) as (l & P & F).
  exists l. split; [exact P|]. clear - F HC PR ON FO. induction F as [|fi t l ts (_ & B) F IH]; cbn [map]; constructor; [|exact IH].
  clear - B HC PR ON FO. induction B as [|id id' r r' (_ & v & E & W) B IH]; constructor; [|exact IH].
  assert (I : In v (pVerts p)) by (unfold zidx in E; destruct (id <? 0); [discriminate|exact (nth_error_In _ _ E)]).
  destruct PR as [_ _ PB _]. rewrite Forall_forall in PB, FO.
  destruct (skin_exact hundred centi p v HC (fun b => ON v b I) (proj2 (PB v I)) p' id' (FO v I) W) as (v' & E' & X). exists v, v'. auto.
Qed.
Print Assumptions C135_exact_partial.

(** The model of C33: the weights of its vertices by face, and those of the model that is saved. *)
Definition C135_run (p : pmodel Z) : option (pmodel Z) :=
  match convert 100 60 (@rev _) p with
  | Some (os, bw, sets) => to_mmd 2 1 (mkDocument (map (fun m => C134.mat (pmName m)) (pMats p)) os) (map (fun b => mkBone (Z.of_nat (fst b) + 1) "b" 0 (mkV3 0 0 0) (snd b)) (combine (seq 0 (length bw)) bw)) sets
  | None => None
  end.
Definition C135_skins (p : pmodel Z) : list (list (option (list (Z * Z)))) :=
  map (map (fun id => option_map (fun v => combine (pvBones v) (pvWeights v)) (zidx (pVerts p) id))) (pFaces p).
Definition C135_model : pmodel Z :=
  mkPModel [C33.pv 0 0 1 [0] [1]; C33.pv 4 0 2 [0; 1] [2; 3]; C33.pv 0 4 3 [1; 0] [1; 2]; C33.pv 4 4 4 [] []; C33.pv 9 0 5 [1] [7]; C33.pv 9 9 6 [0; 1] [4; 0]; C33.pv 5 9 7 [1] [2]]
           (pFaces C33.ex_model) (pMats C33.ex_model) (pMorphs C33.ex_model) 2.
Example C135_example : proper C135_model /\ Forall (fun f => length f = 3%nat) (pFaces C135_model) /\ once C135_model /\ (forall m, In m (pMorphs C135_model) -> ~ mesh_name (phName m)) /\
  C135_skins C135_model =
    [[Some [(0, 1)]; Some [(0, 2); (1, 3)]; Some [(1, 1); (0, 2)]]; [Some [(1, 7)]; Some [(0, 4); (1, 0)]; Some [(1, 2)]]; [Some [(1, 1); (0, 2)]; Some [(0, 2); (1, 3)]; Some []]] /\
  option_map C135_skins (C135_run C135_model) = Some
    [[Some [(0, 100)]; Some [(0, 200); (1, 300)]; Some [(0, 200); (1, 100)]]; [Some [(0, 200); (1, 100)]; Some [(0, 200); (1, 300)]; Some []]; [Some [(1, 700)]; Some [(0, 400)]; Some [(1, 200)]]].
Proof.
  split; [repeat split; repeat constructor; cbn; lia|]. split; [repeat constructor|]. split; [apply nodup_once; repeat constructor; cbn; intuition discriminate|]. split; [|split; vm_compute; reflexivity].
  intros m [<-|[]] (r & [E|E]); discriminate E.
Qed.

(** Refuted: a vertex of a morph base that names a bone twice: its weights 1 and 2 become 1.02, not 3. *)
Definition C135_full : Prop := forall (p p' : pmodel Z), proper p -> C135_run p = Some p' ->
  forall id v v' b, zidx (pVerts p) id = Some v -> pFaces p = [[0; 1; 2]] -> pFaces p' = [[0; 1; 2]] -> zidx (pVerts p') id = Some v' ->
  fold_left Z.add (weights_for v' b) 0 = 100 * fold_left Z.add (weights_for v b) 0.
Theorem C135_twice_refuted : ~ C135_full.
Proof.
  intros H. destruct (C135_run C35.twice_model) as [p'|] eqn:E; [|vm_compute in E; discriminate E].
  assert (Pp : proper C35.twice_model) by (repeat split; repeat constructor; cbn; lia). specialize (H C35.twice_model p' Pp E 0). vm_compute in E. injection E as <-.
  specialize (H _ _ 0 eq_refl eq_refl eq_refl eq_refl). vm_compute in H. discriminate H.
Qed.
Print Assumptions C135_twice_refuted.
