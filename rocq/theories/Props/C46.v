(** C46: resetting joint rotations keeps joint positions. *)
From Coq Require Import List ZArith Bool Lia Reals Lra QArith.
From Verif.Model Require Import Num NumR Vec Matrix GltfUtil.
From Verif.Spec Require Import GeomSpec GltfUtilSpec.
From Verif.Proofs Require Import MatrixLemmas GltfUtilProofs.
Import ListNotations.
Local Open Scope list_scope.

(** No node moves (children keep their places, skinned meshes their whole matrix), whatever the order of the nodes. *)
Theorem C46_places_partial : forall nodes nodes' : list (jnode R), is_forest nodes -> rigid_nodes nodes -> reset_joints nodes = Some nodes' ->
  length nodes' = length nodes /\
  forall j m, world nodes j m -> exists m', world nodes' j m' /\ place_of m' = place_of m /\
    forall n, nth_error nodes j = Some n -> jnSkin n = true -> m' = m.
Proof.
  intros nodes nodes' F RG H. destruct (reset_passes_moves 10 nodes nodes' F RG H) as (SH & _ & M). split; [|exact M]. exact (shape_len _ _ SH).
Qed.
Print Assumptions C46_places_partial.

(** Rotations disappear down to depth nine, at any depth if parents are listed before their children. *)
Theorem C46_depth_partial : forall nodes nodes' : list (jnode R), is_forest nodes -> reset_joints nodes = Some nodes' ->
  forall i d n, depth nodes i d -> (d < 10)%nat -> nth_error nodes' i = Some n -> jnSkin n = false -> jnRot n = rot_id.
Proof. exact reset_rotations. Qed.
Print Assumptions C46_depth_partial.
Theorem C46_first_partial : forall nodes nodes' : list (jnode R), is_forest nodes -> (forall p i, parent_of nodes p i -> (p < i)%nat) -> reset_joints nodes = Some nodes' ->
  forall i n, nth_error nodes' i = Some n -> jnSkin n = false -> jnRot n = rot_id.
Proof. exact reset_first. Qed.
Print Assumptions C46_first_partial.

(** The inverse bind matrices follow. *)
Theorem C46_binds_partial : forall nodes nodes' : list (jnode R), is_forest nodes -> rigid_nodes nodes -> Forall (fun n => jnScale n = mkV3 1%R 1%R 1%R) nodes ->
  Forall (fun n => jnChildren n <> [] -> jnSkin n = false) nodes -> reset_joints nodes = Some nodes' ->
  forall j d n m b, nth_error nodes j = Some n -> jnSkin n = false -> depth nodes j d -> (d < 10)%nat -> world nodes j m -> mat_mul m b = mat_id ->
  exists m', world nodes' j m' /\ mat_mul m' (reset_bind b) = mat_id.
Proof. exact reset_skins. Qed.
Print Assumptions C46_binds_partial.

(** It always ends without a crash. *)
Theorem C46_total : forall (T : Type) (N : Num T) (nodes : list (jnode T)), is_forest nodes -> exists nodes', reset_joints nodes = Some nodes'.
Proof. intros T N. exact (reset_total 10). Qed.
Print Assumptions C46_total.

(** A chain, deepest node first; the root is turned half way around the X axis. *)
Definition link {T} {N : Num T} (q : vec4 T) (cs : list nat) : jnode T := mkJN (mkV3 none none nzero) q (mkV3 none none none) cs false.
Definition chain {T} {N : Num T} (k : nat) : list (jnode T) :=
  map (fun i => link (if (i =? k)%nat then mkV4 none nzero nzero nzero else rot_id) (match i with O => [] | S p => [p] end)) (seq 0 (S k)).
Lemma chain_nth {T} {N : Num T} k i : nth_error (chain k : list (jnode T)) i =
  if (i <=? k)%nat then Some (link (if (i =? k)%nat then mkV4 none nzero nzero nzero else rot_id) (match i with O => [] | S p => [p] end)) else None.
Proof.
  unfold chain. rewrite nth_error_map. destruct (Nat.leb_spec i k).
  - rewrite (nth_error_nth' _ O) by (rewrite seq_length; lia). rewrite seq_nth by lia. reflexivity.
  - rewrite (proj2 (nth_error_None _ _)) by (rewrite seq_length; lia). reflexivity.
Qed.
Lemma chain_parent {T} {N : Num T} k p i : parent_of (chain k : list (jnode T)) p i <-> p = S i /\ (p <= k)%nat.
Proof.
  unfold parent_of. split.
  - intros (n & Hn & Hi). rewrite chain_nth in Hn. destruct (Nat.leb_spec p k); [|discriminate]. injection Hn as <-. destruct p as [|p]; cbn in Hi; [contradiction|]. destruct Hi as [<-|[]]. auto.
  - intros (-> & Hp). eexists. rewrite chain_nth. destruct (Nat.leb_spec (S i) k); [|lia]. split; [reflexivity|]. left. reflexivity.
Qed.
Lemma chain_depth {T} {N : Num T} k : forall d, (d <= k)%nat -> depth (chain k : list (jnode T)) (k - d) d.
Proof.
  induction d as [|d IH]; intros Hd.
  - eapply d_root; [rewrite chain_nth; destruct (Nat.leb_spec (k - 0) k); [reflexivity|lia]|]. intros p Hp. apply chain_parent in Hp. lia.
  - eapply d_child; [rewrite chain_nth; destruct (Nat.leb_spec (k - S d) k); [reflexivity|lia]|apply chain_parent|apply IH]; lia.
Qed.
Lemma chain_forest {T} {N : Num T} k : is_forest (chain k : list (jnode T)).
Proof.
  split; [|split].
  - unfold chain. rewrite map_map. cbn [link jnChildren]. apply (NoDup_map_inv S). replace (map S _) with (seq 1 k); [apply seq_NoDup|].
    rewrite <- seq_shift. f_equal. change (seq 0 (S k)) with (0%nat :: seq 1 k). rewrite <- seq_shift, map_cons, map_map. cbn [concat app].
    induction (seq 0 k) as [|x l IH]; [reflexivity|]. cbn [map concat app]. congruence.
  - unfold chain. rewrite map_length, seq_length. apply Forall_forall. intros n Hn. apply in_map_iff in Hn as (i & <- & Hi). apply in_seq in Hi. destruct i; repeat constructor. lia.
  - intros i n Hn. rewrite chain_nth in Hn. destruct (Nat.leb_spec i k); [|discriminate]. exists (k - i)%nat. replace i with (k - (k - i))%nat at 1 by lia. apply chain_depth. lia.
Qed.

(** Refuted: ten passes do not reach the eleventh generation. *)
Theorem C46_deep_refuted : exists nodes nodes' : list (jnode Z), is_forest nodes /\ reset_joints nodes = Some nodes' /\
  exists n, nth_error nodes' 1 = Some n /\ jnSkin n = false /\ jnRot n <> rot_id.
Proof. exists (chain 11). eexists. split; [apply chain_forest|]. split; [vm_compute; reflexivity|]. eexists. split; [reflexivity|]. split; [reflexivity|]. vm_compute. discriminate. Qed.
Print Assumptions C46_deep_refuted.

Definition two (a b : jnode Q) : list (jnode Q) := [a; b].
Lemma two_forest a b : jnChildren a = [1%nat] -> jnChildren b = [] -> is_forest (two a b).
Proof.
  intros Ha Hb. assert (P0 : forall p, ~ parent_of (two a b) p 0).
  { intros p (n & Hn & Hi). destruct p as [|[|p]]; cbn in Hn; [| |destruct p; discriminate]; injection Hn as <-; rewrite ?Ha, ?Hb in Hi; cbn in Hi; intuition discriminate. }
  split; [|split].
  - cbn. rewrite Ha, Hb. repeat constructor. intros [].
  - repeat constructor; rewrite ?Ha, ?Hb; repeat constructor.
  - intros i n Hn. destruct i as [|[|i]]; cbn in Hn; [exists 0%nat; eapply d_root; [exact Hn|exact P0]| |destruct i; discriminate].
    exists 1%nat. eapply (d_child _ 0); [exact Hn|exists a; split; [reflexivity|rewrite Ha; left; reflexivity]|]. eapply d_root; [reflexivity|exact P0].
Qed.
Lemma two_world a b : jnChildren a = [1%nat] -> jnChildren b = [] -> world (two a b) 1 (mat_mul (local_mat a) (local_mat b)).
Proof.
  intros Ha Hb. eapply (w_child _ 0); [reflexivity|exists a; split; [reflexivity|rewrite Ha; left; reflexivity]|]. eapply w_root; [reflexivity|].
  intros p (n & Hn & Hi). destruct p as [|[|p]]; cbn in Hn; [| |destruct p; discriminate]; injection Hn as <-; rewrite ?Ha, ?Hb in Hi; cbn in Hi; intuition discriminate.
Qed.

(** Refuted: below a node with unequal scales joints move (from (14/25, 48/25) to (14/25, 24/25)). *)
Theorem C46_scale_refuted : exists a b a' b' : jnode Q, is_forest (two a b) /\ reset_joints (two a b) = Some (two a' b') /\
  exists m m', world (two a b) 1 m /\ world (two a' b') 1 m' /\ ~ (vy (place_of m) == vy (place_of m'))%Q.
Proof.
  exists (mkJN (mkV3 0 0 0)%Q (mkV4 0 0 (3 # 5) (4 # 5))%Q (mkV3 2 1 1)%Q [1%nat] false), (mkJN (mkV3 1 0 0)%Q rot_id (mkV3 1 1 1)%Q [] false).
  eexists _, _. split; [apply two_forest; reflexivity|]. split; [vm_compute; reflexivity|]. eexists _, _. split; [apply two_world; reflexivity|]. split; [apply two_world; reflexivity|].
  vm_compute. discriminate.
Qed.
Print Assumptions C46_scale_refuted.

(** Refuted: nodes that are no joints lose their rotation as well, so unskinned meshes turn. *)
Theorem C46_static_mesh_refuted : exists a b a' b' : jnode Q, is_forest (two a b) /\ reset_joints (two a b) = Some (two a' b') /\
  exists m m', world (two a b) 1 m /\ world (two a' b') 1 m' /\ ~ (vx (mat_apply m (mkV3 1 0 0)%Q) == vx (mat_apply m' (mkV3 1 0 0)%Q))%Q.
Proof.
  exists (mkJN (mkV3 0 0 0)%Q rot_id (mkV3 1 1 1)%Q [1%nat] false), (mkJN (mkV3 3 0 0)%Q (mkV4 0 0 1 0)%Q (mkV3 1 1 1)%Q [] false).
  eexists _, _. split; [apply two_forest; reflexivity|]. split; [vm_compute; reflexivity|]. eexists _, _. split; [apply two_world; reflexivity|]. split; [apply two_world; reflexivity|].
  vm_compute. discriminate.
Qed.
Print Assumptions C46_static_mesh_refuted.

(** Refuted: the inverse bind matrix of a scaled joint becomes wrong although nothing is rotated. *)
Theorem C46_scaled_bind_refuted : exists (a b : jnode Q) (m ib : mat4 Q), is_forest (two a b) /\ reset_joints (two a b) = Some (two a b) /\ world (two a b) 1 m /\
  mat_mul m ib = mat_id /\ ~ (m12 (mat_mul m (reset_bind ib)) == 0)%Q.
Proof.
  exists (mkJN (mkV3 0 0 0)%Q rot_id (mkV3 1 1 1)%Q [1%nat] false), (mkJN (mkV3 1 0 0)%Q rot_id (mkV3 2 2 2)%Q [] false).
  eexists _, (mkM (1#2) 0 0 0  0 (1#2) 0 0  0 0 (1#2) 0  (-1#2) 0 0 1)%Q. split; [apply two_forest; reflexivity|]. split; [reflexivity|]. split; [apply two_world; reflexivity|].
  split; [vm_compute; reflexivity|]. vm_compute. discriminate.
Qed.
Print Assumptions C46_scaled_bind_refuted.

(** A turned chain of four joints, deepest first, fulfils all hypotheses. *)
Example C46_example : is_forest (chain 3 : list (jnode R)) /\ rigid_nodes (chain 3) /\ Forall (fun n => jnScale n = mkV3 1%R 1%R 1%R) (chain 3) /\ depth (chain 3 : list (jnode R)) 0 3.
Proof.
  split; [apply chain_forest|]. split; [|split; [repeat constructor|apply (chain_depth 3 3); lia]].
  apply Forall_forall. intros n Hn. apply in_map_iff in Hn as (i & <- & _). split; [|split; reflexivity]. unfold unit_quat, rot_id. cbn [link jnRot]. destruct (i =? 3)%nat; cbn; ring.
Qed.
Example C46_example_run : reset_joints (chain 3 : list (jnode Z)) = Some (map (fun p : Z * list nat => mkJN (mkV3 1%Z (fst p) 0%Z) rot_id (mkV3 1 1 1)%Z (snd p) false) [((-1)%Z, []); ((-1)%Z, [0%nat]); ((-1)%Z, [1%nat]); (1%Z, [2%nat])]).
Proof. vm_compute. reflexivity. Qed.
