(** C21: vertex skinning survives a PMX save. *)
From Coq Require Import List ZArith Bool.
From Verif.Model Require Import Num Vec Codec Pmx.
From Verif.Spec Require Import PmxSpec.
From Verif.Proofs Require Import CodecLemmas PmxProofs.
Import ListNotations.
Open Scope Z_scope.

(** What happens to a vertex with 0 to 4 influences: everything but the skinning is kept,
    and the skinning becomes [skin_after_save]: none -> bone -1 with weight 1; one -> weight
    1; two -> second weight is 1 minus the first; three -> a fourth (-1, 0); four -> same. *)
Theorem C21_skin_after_save : forall fsub1 h v,
  nth_error (h_info h) 0 = Some 1 -> (8 <= length (h_info h))%nat ->
  vec3_ok (v_pos v) = true -> vec3_ok (v_normal v) = true -> vec2_ok (v_uv v) = true ->
  forallb vec4_ok (v_ext v) = true -> length (v_ext v) = Z.to_nat (wd h AttrExtUV) ->
  u_ok 4 (v_edge v) = true ->
  (length (v_weights v) <= 4)%nat -> length (v_bones v) = length (v_weights v) ->
  forallb (bidx_ok h) (v_bones v) = true -> bidx_ok h (-1) = true ->
  forallb (u_ok 4) (v_weights v) = true ->
  let '(bs, ws) := skin_after_save fsub1 (v_bones v) (v_weights v) in
  reads_back (readVertex fsub1 h) (writeVertex h v)
    (mkVertex (v_pos v) (v_normal v) (v_uv v) (v_ext v) (v_edge v) bs ws).
Proof. exact skin_saved. Qed.
Print Assumptions C21_skin_after_save.

(** After one save and load, another one changes nothing more. *)
Theorem C21_skin_stable : forall fsub1 bs ws,
  let '(bs', ws') := skin_after_save fsub1 bs ws in skin_after_save fsub1 bs' ws' = (bs', ws').
Proof. exact skin_after_save_idem. Qed.
Print Assumptions C21_skin_stable.

(** The claim itself is false: a single weight of 0.5 comes back as 1, and whatever 1 - w
    is, of two vertices that differ in the second weight only, one is changed. *)
Definition one_bone (w : Z) : vertex := mkVertex vec3_0 vec3_0 (mkV2 0 0) [] 0 [3] [w].
Definition two_bones (w w' : Z) : vertex := mkVertex vec3_0 vec3_0 (mkV2 0 0) [] 0 [3; 4] [w; w'].
Definition f32_half := 1056964608.
Theorem C21_one_weight_refuted : forall fsub1, exists v v',
  v = one_bone f32_half /\ reads_back (readVertex fsub1 new_header) (writeVertex new_header v) v' /\
  v_bones v' = v_bones v /\ v_weights v' <> v_weights v.
Proof.
  intros fsub1. exists (one_bone f32_half), (one_bone f32_one).
  split; [reflexivity|]. split; [|split; [reflexivity|discriminate]].
  exact (skin_saved fsub1 new_header (one_bone f32_half) eq_refl (le_n 8) eq_refl eq_refl eq_refl
    eq_refl eq_refl eq_refl (le_S _ _ (le_S _ _ (le_S _ _ (le_n 1)))) eq_refl eq_refl eq_refl eq_refl).
Qed.
Print Assumptions C21_one_weight_refuted.

Theorem C21_two_weights_refuted : forall fsub1, exists v v',
  length (v_weights v) = 2%nat /\ reads_back (readVertex fsub1 new_header) (writeVertex new_header v) v' /\
  v_weights v' <> v_weights v.
Proof.
  intros fsub1.
  assert (C : forall w', u_ok 4 w' = true ->
    reads_back (readVertex fsub1 new_header) (writeVertex new_header (two_bones f32_half w'))
      (two_bones f32_half (fsub1 f32_half))).
  { intros w' Hw.
    assert (F : forallb (u_ok 4) [f32_half; w'] = true) by (cbn [forallb]; rewrite Hw; reflexivity).
    exact (skin_saved fsub1 new_header (two_bones f32_half w') eq_refl (le_n 8) eq_refl eq_refl eq_refl
      eq_refl eq_refl eq_refl (le_S _ _ (le_S _ _ (le_n 2))) eq_refl eq_refl eq_refl F). }
  destruct (Z.eq_dec (fsub1 f32_half) 0) as [E|E].
  - exists (two_bones f32_half f32_half), (two_bones f32_half (fsub1 f32_half)).
    split; [reflexivity|]. split; [apply C; reflexivity|]. rewrite E. discriminate.
  - exists (two_bones f32_half 0), (two_bones f32_half (fsub1 f32_half)).
    split; [reflexivity|]. split; [apply C; reflexivity|]. cbn. congruence.
Qed.
Print Assumptions C21_two_weights_refuted.

Example C21_hyps_example :
  let v := mkVertex vec3_0 vec3_0 (mkV2 0 0) [] 0 [3; 4; 5] [1; 2; 3] in
  nth_error (h_info new_header) 0 = Some 1 /\ length (v_ext v) = Z.to_nat (wd new_header AttrExtUV) /\
  forallb (bidx_ok new_header) (v_bones v) = true /\ bidx_ok new_header (-1) = true /\
  skin_after_save (fun w => w) (v_bones v) (v_weights v) = ([3; 4; 5; -1], [1; 2; 3; 0]).
Proof. repeat split. Qed.
