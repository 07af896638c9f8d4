(** C25: VMD files are decoded field by field. *)
From Coq Require Import List ZArith Bool.
From Verif.Model Require Import Num Vec Codec Vmd.
From Verif.Spec Require Import VmdSpec.
From Verif.Proofs Require Import VmdProofs.
Import ListNotations.
Open Scope Z_scope.

(** [sjis] is the Shift-JIS decoder; any bytes may follow. *)
Theorem C25_decode : forall sjis w rest, sjis (w_magic w) = vmd_magic -> wire_ok w ->
  parse_vmd sjis (vmd_bytes w ++ rest) = ROk (read_wire sjis w, false) rest.
Proof. exact parse_vmd_bytes. Qed.
Print Assumptions C25_decode.

Theorem C25_bad_magic : forall sjis w rest, sjis (w_magic w) <> vmd_magic -> field_ok 30 (w_magic w) (w_mjunk w) ->
  parse_vmd sjis (vmd_bytes w ++ rest) = RErr.
Proof. exact parse_vmd_magic. Qed.
Print Assumptions C25_bad_magic.

(** Names of 15 bytes have no terminator; shorter ones are followed by junk. *)
Definition motion : wire :=
  mkWire vmd_magic [0; 0; 7; 7] [109; 105] (repeat 255 17)
    [ mkWB [97; 98] (repeat 1 12) 300 (mkV3 1 2 3) (mkV4 4 5 6 1065353216) (repeat 20 64);
      mkWB (repeat 120 15) [] 0 (mkV3 0 0 0) (mkV4 0 0 0 4294967295) (repeat 0 64) ]
    [ mkWM [109] (repeat 0 13) 65536 1056964608 ].
Example C25_example_hyp : wire_ok motion.
Proof.
  unfold wire_ok, motion, field_ok; cbn. repeat split; try (intros; cbn in *; intuition discriminate); try (cbn; repeat constructor);
    repeat (apply Forall_cons || apply Forall_nil); unfold wb_ok, wm_ok, field_ok; cbn;
    repeat split; try (intros; cbn in *; intuition discriminate); try (cbn; repeat constructor).
Qed.
Example C25_example : length (vmd_bytes motion) = 303%nat /\
  parse_vmd (fun b => b) (vmd_bytes motion) =
  ROk (mkAnim [109; 105]
        [ mkBS [97; 98] 300 (mkV3 1 2 3) (mkV4 4 5 6 1065353216) (repeat 20 64);
          mkBS (repeat 120 15) 0 (mkV3 0 0 0) (mkV4 0 0 0 4294967295) (repeat 0 64) ]
        [ mkMS [109] 65536 1056964608 ], false) [].
Proof. split; vm_compute; reflexivity. Qed.
