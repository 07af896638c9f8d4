(** C37: MQO to PMX keeps morphs, normals and rigid body modes. *)
From Coq Require Import String List ZArith Bool Lia Reals Lra.
From Verif.Model Require Import Num NumR Vec Matrix Mqo MqoDoc Mmd2Mqo Normals Mqo2Mmd.
From Verif Require Import Spec.MmdConvSpec Spec.Mqo2MmdSpec Proofs.Mqo2MmdTop Props.C36.
Import ListNotations.
Local Open Scope Z_scope.

(** A PMX vertex made from vertex [v] of a base object is moved by every morph whose target has a
    vertex [v], by the difference of the scaled positions, without z. *)
Theorem C37_offset_partial : forall (T : Type) (N : Num T) (scale centi : T) (d : document T) bones sets p o v uv id ts t tob b q,
  to_mmd scale centi d bones sets = Some p -> exported_as d sets p (o, v, uv) id ->
  targets_of sets (oName o) ts -> In t ts -> named (fix_ids 0 (dObjects d)) t tob ->
  zidx (oVerts o) v = Some b -> zidx (oVerts tob) v = Some q ->
  has_offset p t id (mkV3 (nsub (vx (scaled scale q)) (vx (scaled scale b))) (nsub (vy (scaled scale q)) (vy (scaled scale b))) nzero).
Proof. exact (fun T N => @to_mmd_offset T N). Qed.
Print Assumptions C37_offset_partial.

(** There are no other offsets. *)
Theorem C37_offset_sound_partial : forall (T : Type) (N : Num T) (scale centi : T) (d : document T) bones sets p t id off,
  to_mmd scale centi d bones sets = Some p -> has_offset p t id off ->
  exists o ts v tob b q x, In o (fix_ids 0 (dObjects d)) /\ exported sets o = true /\ targets_of sets (oName o) ts /\ In t ts /\
    named (fix_ids 0 (dObjects d)) t tob /\ zidx (oVerts o) v = Some b /\ zidx (oVerts tob) v = Some q /\
    zidx (pVerts p) id = Some x /\ pvPos x = scaled scale b /\
    off = mkV3 (nsub (vx (scaled scale q)) (vx (scaled scale b))) (nsub (vy (scaled scale q)) (vy (scaled scale b))) nzero.
Proof. exact (fun T N => @to_mmd_offset_sound T N). Qed.
Print Assumptions C37_offset_sound_partial.

Definition ex_pmx := Eval vm_compute in
  match to_mmd 2 1 ex_doc [] ex_sets with Some p => p | None => mkPModel [] [] [] [] 0 end.
Definition fixed (k : nat) : object Z := nth k (fix_ids 0 (dObjects ex_doc)) (obj "" true [] []).
(** The third corner of the last face of the document of C36 moves by (1, 2, 4) in the target. *)
Example C37_example :
  to_mmd 2 1 ex_doc [] ex_sets = Some ex_pmx /\ exported_as ex_doc ex_sets ex_pmx (fixed 1, 2, mkV2 0 0) 2 /\
  targets_of ex_sets (oName (fixed 1)) ["smile"%string] /\ named (fix_ids 0 (dObjects ex_doc)) "smile" (fixed 2) /\
  has_offset ex_pmx "smile" 2 (mkV3 2 4 0).
Proof.
  split; [vm_compute; reflexivity|]. split.
  { exists [[[0; 1; 2]]; [[3; 4; 5]; [3; 5; 6]]; []], 0%nat, [[0; 1; 2]], [(fixed 1, 1, mkV2 0 0); (fixed 1, 4, mkV2 0 0); (fixed 1, 2, mkV2 0 0)], [0; 1; 2], 2%nat.
    repeat (split; [vm_compute; reflexivity|]). exists 0%nat. vm_compute. auto. }
  split; [exists [], (mkTL "body" ["smile"%string]), []; repeat split; constructor|].
  split; [exists [fixed 0; fixed 1], []; repeat split; constructor|].
  exists (nth 0 (pMorphs ex_pmx) (mkPMorph "" [] [])). vm_compute. auto 10.
Qed.

(** The claim with z. *)
Definition C37_morph_full : Prop := forall (d : document Z) bones sets p o v uv id ts t tob b q,
  valid_faces d -> to_mmd 2 1 d bones sets = Some p -> exported_as d sets p (o, v, uv) id ->
  targets_of sets (oName o) ts -> In t ts -> named (fix_ids 0 (dObjects d)) t tob ->
  zidx (oVerts o) v = Some b -> zidx (oVerts tob) v = Some q ->
  has_offset p t id (v3sub (scaled 2 q) (scaled 2 b)).
(** A target that only moves in z: its PMX morph moves nothing. *)
Definition deep_doc : document Z :=
  mkDocument [mat "skin"]
    [obj "body" true [mkV3 0 0 5; mkV3 4 0 5; mkV3 4 4 5] [mkFace 0 [0; 1; 2] 0 [] []];
     obj "frown" true [mkV3 0 0 6; mkV3 4 0 6; mkV3 4 4 6] []].
Definition deep_sets : list target_list := [mkTL "body" ["frown"%string]].
Definition deep_pmx := Eval vm_compute in
  match to_mmd 2 1 deep_doc [] deep_sets with Some p => p | None => mkPModel [] [] [] [] 0 end.
Definition deep (k : nat) : object Z := nth k (fix_ids 0 (dObjects deep_doc)) (obj "" true [] []).
Lemma deep_exported : exported_as deep_doc deep_sets deep_pmx (deep 0, 0, mkV2 0 0) 0.
Proof.
  exists [[[0; 1; 2]]], 0%nat, [[0; 1; 2]], [(deep 0, 0, mkV2 0 0); (deep 0, 1, mkV2 0 0); (deep 0, 2, mkV2 0 0)], [0; 1; 2], 0%nat.
  repeat (split; [vm_compute; reflexivity|]). exists 0%nat. vm_compute. auto.
Qed.
Theorem C37_morph_z_refuted : ~ C37_morph_full.
Proof.
  intros H. specialize (H deep_doc [] deep_sets deep_pmx (deep 0) 0 (mkV2 0 0) 0 ["frown"%string] "frown"%string (deep 1) (mkV3 0 0 5) (mkV3 0 0 6)).
  assert (C : has_offset deep_pmx "frown" 0 (v3sub (scaled 2 (mkV3 0 0 6)) (scaled 2 (mkV3 0 0 5)))).
  { apply H; try reflexivity.
    - unfold valid_faces. repeat constructor; cbn; lia.
    - exact deep_exported.
    - exists [], (mkTL "body" ["frown"%string]), []. repeat split; constructor.
    - left. reflexivity.
    - exists [deep 0], []. repeat split; constructor. }
  destruct C as (m & Hm & _ & Hi). cbn in Hm. destruct Hm as [<-|[]]. cbn in Hi. destruct Hi as [E|[E|[E|[]]]]; discriminate E.
Qed.
Print Assumptions C37_morph_z_refuted.

(** Normals are the smooth normals of the object. *)
Theorem C37_normal_partial : forall (T : Type) (N : Num T) (scale centi : T) (d : document T) bones sets p o v uv id,
  to_mmd scale centi d bones sets = Some p -> exported_as d sets p (o, v, uv) id ->
  exists x ns, zidx (pVerts p) id = Some x /\ smooth_normals o = Some ns /\ zidx ns v = Some (pvNormal x).
Proof. exact (fun T N => @to_mmd_normal T N). Qed.
Print Assumptions C37_normal_partial.
(** They are not mirrored as the positions are. *)
Definition C37_normal_full : Prop := forall (d : document Z) bones sets p o v uv id,
  valid_faces d -> to_mmd 2 1 d bones sets = Some p -> exported_as d sets p (o, v, uv) id ->
  exists x ns n, zidx (pVerts p) id = Some x /\ smooth_normals o = Some ns /\ zidx ns v = Some n /\ pvNormal x = flip_z n.
Theorem C37_normal_z_refuted : ~ C37_normal_full.
Proof.
  intros H. destruct (H deep_doc [] deep_sets deep_pmx (deep 0) 0 (mkV2 0 0) 0) as (x & ns & n & E1 & E2 & E3 & E4);
    [unfold valid_faces; repeat constructor; cbn; lia|reflexivity|exact deep_exported|].
  vm_compute in E1. injection E1 as <-. vm_compute in E2. injection E2 as <-. vm_compute in E3. injection E3 as <-. vm_compute in E4. discriminate E4.
Qed.
Print Assumptions C37_normal_z_refuted.

(** The kinematic flag is inverted by going to PMX and back: [Mode] 1 is written for kinematic
    bodies, [Mode] 0 read as kinematic. *)
Theorem C37_kinematic_refuted : forall (T : Type) (N : Num T) (scale : T) (bones : list (bone T)) (b : mbody T),
  mbKinematic (from_mmd_body (to_mmd_body scale bones b)) <> mbKinematic b.
Proof. intros T N scale bones b. unfold from_mmd_body, to_mmd_body. cbn. destruct (mbKinematic b); discriminate. Qed.
Print Assumptions C37_kinematic_refuted.
(** The size of a body is converted as if it were a position, so its third component is negative. *)
Theorem C37_size_refuted : forall (scale : R) (bones : list (bone R)) (b : mbody R),
  (0 < scale)%R -> (0 < vz (mbSize b))%R -> (vz (rbSize (to_mmd_body scale bones b)) < 0)%R.
Proof.
  intros scale bones b Hs Hz. unfold to_mmd_body. cbn. pose proof (Rmult_lt_0_compat _ _ Hz Hs). lra.
Qed.
Print Assumptions C37_size_refuted.
(** Name and position of a body survive but for the scale. *)
Theorem C37_body_partial : forall (T : Type) (N : Num T) (scale : T) (bones : list (bone T)) (b : mbody T),
  let b' := from_mmd_body (to_mmd_body scale bones b) in
  mbName b' = mbName b /\ mbPos b' = flip_z (scaled scale (mbPos b)) /\ mbSize b' = flip_z (scaled scale (mbSize b)).
Proof. intros. repeat split. Qed.
Print Assumptions C37_body_partial.
