(** C104: sizes of the textures of exported documents. *)
From Coq Require Import String Ascii List ZArith QArith Qround Bool.
From Verif.Model Require Import Num Vec Matrix Mqo MqoDoc Gltf Mqo2Gltf Cli Mqo2GltfTextures.
From Verif.Spec Require Import TextureSpec.
From Verif.Proofs Require Import TextureProofs.
From Verif.Props Require C103.
Import ListNotations.
Local Open Scope Z_scope.
Local Open Scope list_scope.

(** Pictures that are encoded have the scaled width, or the limit if that is less, and their height is in proportion; pictures that are not
    higher than wide keep within the limit in both directions.  (C103: the images that are not copied are such pictures.) *)
Theorem C104_scaled : forall opts p, (0 < toScale opts)%Q -> 0 <= pW p -> 0 <= pH p -> forall resample, fits resample opts p (scaled_picture resample opts p).
Proof. exact scaled_fits. Qed.
Print Assumptions C104_scaled.
Theorem C104_limit_partial : forall resample opts p q, (0 < toScale opts)%Q -> 0 < toLimit opts -> 0 <= pH p <= pW p ->
  (forall w h x, pW (resample w h x) = w /\ pH (resample w h x) = h) -> fits resample opts p q ->
  pW q <= toLimit opts /\ pH q <= toLimit opts /\ pW q = Z.min (toLimit opts) (Qfloor (inject_Z (pW p) * toScale opts)).
Proof. exact limit_ok. Qed.
Print Assumptions C104_limit_partial.

(** 3000 x 1000, to a third and at most 512: 512 x 170. *)
Example C104_example : let q := scaled_picture C103.C103_resample (mkTO true 0 512 (1 # 3) false false) (mkPic 3000 1000 MNRGBA (fun _ _ => true)) in
  (pW q, pH q) = (512, 170).
Proof. vm_compute. reflexivity. Qed.

(** Refuted: the height is not limited. *)
Theorem C104_height_refuted : exists ts st, C103.C103_run [(C103.C103_mat "a" "tall.gif" "" None, None)] = Some (ts, st) /\
  toLimit C103.C103_opts = 5 /\ map giData (tsImages st) = [[2; 50]].
Proof. do 2 eexists. split; [vm_compute; reflexivity|]. split; reflexivity. Qed.
Print Assumptions C104_height_refuted.
(** Refuted: PNG and JPEG pictures that are larger than the limit are copied, unless all textures are compressed again or the file is large. *)
Theorem C104_copied_refuted : exists ts st, C103.C103_run [(C103.C103_mat "a" "skin.png" "" None, None)] = Some (ts, st) /\
  toLimit C103.C103_opts = 5 /\ map giData (tsImages st) = [[8; 8]].
Proof. do 2 eexists. split; [vm_compute; reflexivity|]. split; reflexivity. Qed.
Print Assumptions C104_copied_refuted.
