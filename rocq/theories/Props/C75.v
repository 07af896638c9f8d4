(** C75: material settings of a VRM configuration. *)
From Coq Require Import String List ZArith Bool Lia.
From Verif.Model Require Import Num Vec VrmConfig.
From Verif.Spec Require Import VrmSpec.
From Verif.Proofs Require Import VrmRest.
Import ListNotations.
Local Open Scope string_scope.
Local Open Scope list_scope.
Local Open Scope Z_scope.

(** What the setting in force does to a material. *)
Theorem C75_exact : forall T (N : Num T) (l : list (string * msetting T)) m m' s, NoDup (map fst l) -> in_force l (vmName m) s -> apply_setting l m = Some m' ->
  vmName m' = vmName m /\
  vmExt m' = (if msUnlit s then ["KHR_materials_unlit"%string] else vmExt m) /\
  ((msAlphaMode s = "opaque" -> vmAlpha m' = 0) /\ (msAlphaMode s = "mask" -> vmAlpha m' = 1) /\ (msAlphaMode s = "blend" -> vmAlpha m' = 2) /\
   (~ In (msAlphaMode s) ["opaque"; "mask"; "blend"] -> vmAlpha m' = vmAlpha m))%string /\
  (nltb nzero (msAlpha s) = false -> vmPbr m' = vmPbr m) /\
  (forall c, nltb nzero (msAlpha s) = true -> vmPbr m = Some (Some c) -> vmPbr m' = Some (Some (mkV4 (qx c) (qy c) (qz c) (msAlpha s)))) /\
  (vmPbr m = None -> vmPbr m' = None).
Proof. exact @setting_exact. Qed.
Print Assumptions C75_exact.
(** Other materials are left alone. *)
Theorem C75_others : forall T (N : Num T) (l : list (string * msetting T)) m, NoDup (map fst l) -> (forall s, ~ in_force l (vmName m) s) -> apply_setting l m = Some m.
Proof. exact @setting_other. Qed.
Print Assumptions C75_others.
(** The program crashes exactly if an alpha is set for a material whose PBR part has no base colour. *)
Theorem C75_crash : forall T (N : Num T) (l : list (string * msetting T)) m, NoDup (map fst l) ->
  apply_setting l m = None <-> vmPbr m = Some None /\ exists s, in_force l (vmName m) s /\ nltb nzero (msAlpha s) = true.
Proof. exact @setting_crash. Qed.
Print Assumptions C75_crash.
(** If the configuration has settings, those of the preset are added for the names that have none. *)
Theorem C75_merge_partial : forall T (c p : list (string * msetting T)), NoDup (map fst p) -> NoDup (map fst c) ->
  exists r, merge_settings (Some c) p = Some (Some r) /\ NoDup (map fst r) /\ forall k s, In (k, s) r <-> In (k, s) c \/ (forall s', ~ In (k, s') c) /\ In (k, s) p.
Proof. exact @merge_exact. Qed.
Print Assumptions C75_merge_partial.

Definition C75_settings : list (string * msetting Z) := [("skin"%string, mkMS false "mask" 0); ("*"%string, mkMS true "" 7)].
Example C75_example : apply_setting C75_settings (mkVM "skin" ["x"%string] 0 None) = Some (mkVM "skin" ["x"%string] 1 None) /\
  apply_setting C75_settings (mkVM "hair" ["x"%string] 2 (Some (Some (mkV4 1 2 3 4)))) = Some (mkVM "hair" ["KHR_materials_unlit"%string] 2 (Some (Some (mkV4 1 2 3 7)))) /\
  in_force C75_settings "hair" (mkMS true "" 7) /\ NoDup (map fst C75_settings).
Proof. split; [reflexivity|]. split; [reflexivity|]. split; [right; split; [intros s [H|[H|[]]]; discriminate|right; left; reflexivity]|]. repeat constructor; cbn; intuition discriminate. Qed.
Example C75_example_merge : merge_settings (Some [("skin"%string, mkMS false "mask" 0)]) [("*"%string, mkMS true "" 1); ("skin"%string, mkMS true "" 2)] = Some (Some [("skin"%string, mkMS false "mask" 0); ("*"%string, mkMS true "" 1)]).
Proof. reflexivity. Qed.

(** Refuted: a configuration without material settings and with a preset crashes: the preset's entry is written to a nil map. *)
Theorem C75_merge_refuted : exists p : list (string * msetting Z), merge_settings None p = None.
Proof. exists [("*"%string, mkMS false "" 0)]. reflexivity. Qed.
Print Assumptions C75_merge_refuted.
(** Refuted: forcing a material unlit deletes its other extensions. *)
Theorem C75_extensions_refuted : exists (l : list (string * msetting Z)) m m' e, NoDup (map fst l) /\ apply_setting l m = Some m' /\ In e (vmExt m) /\ ~ In e (vmExt m').
Proof.
  exists [("*"%string, mkMS true "" 0)], (mkVM "hair" ["KHR_texture_transform"%string] 0 None), (mkVM "hair" ["KHR_materials_unlit"%string] 0 None), "KHR_texture_transform"%string.
  split; [repeat constructor; intros []|]. split; [reflexivity|]. split; [left; reflexivity|]. intros [H|[]]. discriminate.
Qed.
Print Assumptions C75_extensions_refuted.
(** Refuted: the user's setting for all materials loses to the preset's setting for one. *)
Theorem C75_user_first_refuted : exists (c p r : list (string * msetting Z)) name s s', merge_settings (Some c) p = Some (Some r) /\ NoDup (map fst c) /\ NoDup (map fst p) /\ in_force c name s /\ in_force r name s' /\ s <> s' /\ ~ In (name, s') c.
Proof.
  exists [("*"%string, mkMS true "" 0)], [("skin"%string, mkMS false "mask" 0)], [("*"%string, mkMS true "" 0); ("skin"%string, mkMS false "mask" 0)], "skin"%string, (mkMS true "" 0), (mkMS false "mask" 0).
  split; [reflexivity|]. split; [repeat constructor; intros []|]. split; [repeat constructor; intros []|]. split; [right; split; [intros s [H|[]]; discriminate|left; reflexivity]|].
  split; [left; right; left; reflexivity|]. split; [discriminate|]. intros [H|[]]. discriminate.
Qed.
Print Assumptions C75_user_first_refuted.
