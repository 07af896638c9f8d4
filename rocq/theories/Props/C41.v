(** C41: exported vertex influences. *)
From Coq Require Import String List ZArith Bool Lia Permutation Reals Lra QArith.
From Verif.Model Require Import Num NumR Vec Matrix Mqo MqoDoc Mmd2Mqo Gltf Mqo2Gltf.
From Verif Require Import Spec.GltfSpec Proofs.GltfWeights Proofs.GltfProps Props.C36.
From Verif Require Props.C39.
Import ListNotations.
Local Close Scope Q_scope.
Local Open Scope Z_scope.

(** Every drawn vertex has four slots, all with a joint of the skin of its node. *)
Theorem C41_joints_valid : forall (T : Type) (N : Num T) (scale centi eps : T) ign unlit opaque99 rough tex_alpha (d : document T) bones sets g,
  to_gltf scale centi eps ign unlit opaque99 rough tex_alpha d bones sets = Some g -> NoDup (map bID bones) -> Forall well_indexed (dObjects d) ->
  Forall (fun o => Z.of_nat (length (lists_of o bones)) <= 65536) (exported_objects ign sets (fix_ids 0 (dObjects d))) ->
  forall i o n mi mesh p sk is_ id, nth_error (exported_objects ign sets (fix_ids 0 (dObjects d))) i = Some o -> nth_error (gdNodes g) i = Some n ->
  gnMesh n = Some mi -> nth_error (gdMeshes g) mi = Some mesh -> In p (gmPrims mesh) -> gpSkin p = Some sk -> gpIndices p = Some is_ -> In id is_ ->
  exists s si skin, zidx sk id = Some s /\ gnSkin n = Some si /\ nth_error (gdSkins g) si = Some skin /\ length s = 4%nat /\
    Forall (fun e => 0 <= fst e < Z.of_nat (length (gsJoints skin))) s.
Proof. exact (fun T N => @joints_valid T N). Qed.
Print Assumptions C41_joints_valid.

(** A vertex with at most four weights keeps all of them. *)
Theorem C41_few : forall (T : Type) (N : Num T) (centi : T) (o : object T) bones ids inf v,
  get_weights centi o bones = Some (ids, inf) ->
  0 <= v < Z.of_nat (length (oVerts o)) -> Z.of_nat (length (lists_of o bones)) <= 65536 -> (length (influences centi o bones v) <= 4)%nat ->
  exists s, zidx inf v = Some s /\ ifSlots s = influences centi o bones v ++ repeat (0, nzero) (4 - length (influences centi o bones v)).
Proof. exact (fun T N => @weights_few T N). Qed.
Print Assumptions C41_few.

(** Five positive weights: one that is not greater than any other is dropped, the others are
    divided by their sum. *)
Theorem C41_five_partial : forall (centi : R) (o : object R) bones ids inf v s,
  get_weights centi o bones = Some (ids, inf) -> zidx inf v = Some s ->
  Z.of_nat (length (lists_of o bones)) <= 65536 ->
  Forall (fun e => (0 < snd e)%R) (influences centi o bones v) -> length (influences centi o bones v) = 5%nat ->
  exists x rest, Permutation (influences centi o bones v) (x :: rest) /\ Forall (fun y => (snd x <= snd y)%R) rest /\
    Permutation (ifSlots s) (map (fun e => (fst e, (snd e / fold_left Rplus (map snd rest) 0)%R)) rest).
Proof. exact weights_five. Qed.
Print Assumptions C41_five_partial.

(** More than four positive weights: the sum is 1. *)
Theorem C41_sum : forall (centi : R) (o : object R) bones ids inf v s,
  get_weights centi o bones = Some (ids, inf) -> zidx inf v = Some s ->
  Forall (fun e => (0 < snd e)%R) (influences centi o bones v) -> (4 < length (influences centi o bones v))%nat ->
  Forall (fun e => (0 <= snd e)%R) (ifSlots s) /\ fold_left Rplus (map snd (ifSlots s)) 0%R = 1%R.
Proof. exact weights_total. Qed.
Print Assumptions C41_sum.

(** Two bones have weights for the object, whose first bone has the last node. *)
Definition ex_bones : list (bone Z) :=
  [mkBone 3 "hand" 2 (mkV3 5 5 0) [(7, [(1, 9)]); (2, [(1, 100); (2, 50)])]; mkBone 1 "hips" 0 (mkV3 0 5 0) [];
   mkBone 2 "arm" 1 (mkV3 2 5 0) [(2, [(2, 50); (3, 100)])]].
Lemma ex_well_indexed : Forall well_indexed (dObjects ex_doc).
Proof.
  unfold well_indexed. repeat apply Forall_cons; try apply Forall_nil; cbn; (split; [repeat constructor; cbn; lia|]); auto.
Qed.
Example C41_example : NoDup (map bID ex_bones) /\ Forall well_indexed (dObjects ex_doc) /\
  option_map (fun g => (map (fun m => map gpSkin (gmPrims m)) (gdMeshes g), map gsJoints (gdSkins g), map gnSkin (gdNodes g)))
    (to_gltf 2 1 1 false false 0 0 (fun _ => false) ex_doc ex_bones ex_sets) =
  Some (let z := (0, 0) in
        let sk := Some [[(0, 100); z; z; z]; [(0, 50); (1, 50); z; z]; [(1, 100); z; z; z]; [z; z; z; z]; [z; z; z; z]] in
        [[sk; sk]], [[2; 4]%nat], [None; Some 0%nat; None; None; None]).
Proof.
  split; [repeat constructor; cbn; intuition lia|]. split; [exact ex_well_indexed|vm_compute; reflexivity].
Qed.

(** Six weights, of which the last is greater than the fourth, and dropped: the kept weights are
    normalised before the sixth comes. *)
Definition six_bones : list (bone Q) :=
  map (fun p => mkBone (fst p) "b" 0 (mkV3 0 0 0)%Q [(1, [(1, snd p)])])
      [(1, (30 # 1)%Q); (2, (30 # 1)%Q); (3, (30 # 1)%Q); (4, (5 # 1)%Q); (5, (4 # 1)%Q); (6, (51 # 10)%Q)].
Definition six_obj : object Q :=
  mkObj 1 "body" [mkV3 0 0 0]%Q [] true false 0 false 1 60%Q 0 0 0 0%Q None None None None [] None.
Theorem C41_strongest_refuted : exists (o : object Q) bones ids inf s, get_weights (1 # 100)%Q o bones = Some (ids, inf) /\
  zidx inf 0 = Some s /\ ids = [1; 2; 3; 4; 5; 6] /\
  map (fun e => (fst e, Qred (snd e))) (influences (1 # 100)%Q o bones 0) = [(0, (3 # 10)%Q); (1, (3 # 10)%Q); (2, (3 # 10)%Q); (3, (1 # 20)%Q); (4, (1 # 25)%Q); (5, (51 # 1000)%Q)] /\
  map fst (ifSlots s) = [0; 1; 2; 3].
Proof.
  destruct (get_weights (1 # 100)%Q six_obj six_bones) as [[ids inf]|] eqn:E; [|vm_compute in E; discriminate].
  destruct (zidx inf 0) as [s|] eqn:Es; [|vm_compute in E; injection E as <- <-; discriminate].
  exists six_obj, six_bones, ids, inf, s. split; [exact E|]. split; [exact Es|]. vm_compute in E. injection E as <- <-. injection Es as <-.
  split; [reflexivity|]. split; vm_compute; reflexivity.
Qed.
Print Assumptions C41_strongest_refuted.
