(** What the parameters of a glTF material mean in a glTF document (specifications of Khronos). *)
From Coq Require Import String List ZArith QArith Bool.
From Verif.Model Require Import Num Vec Mqo MqoDoc Gltf Mqo2GltfTextures.
From Verif.Spec Require Import TextureSpec.
Import ListNotations.
Local Open Scope list_scope.

(** Numbers: the parameter that turns the extension on, its name, the entry, the parameter, and what a missing entry means; [None] is infinite. *)
Definition extension_numbers : list (string * string * string * string * option Q) :=
  [("Extensions.SpecularExt", "KHR_materials_specular", "specularFactor", "Extensions.SpecularFactor", Some 1);
   ("Extensions.Clearcoat", "KHR_materials_clearcoat", "clearcoatFactor", "Extensions.ClearcoatFactor", Some 0);
   ("Extensions.Clearcoat", "KHR_materials_clearcoat", "clearcoatRoughnessFactor", "Extensions.ClearcoatRoughnessFactor", Some 0);
   ("Extensions.Sheen", "KHR_materials_sheen", "sheenRoughnessFactor", "Extensions.SheenRoughnessFactor", Some 0);
   ("Extensions.IorExt", "KHR_materials_ior", "ior", "Extensions.Ior", Some (3 # 2));
   ("Extensions.Volume", "KHR_materials_volume", "thicknessFactor", "Extensions.ThicknessFactor", Some 0);
   ("Extensions.Volume", "KHR_materials_volume", "attenuationDistance", "Extensions.AttenuationDistance", None);
   ("Extensions.Transmission", "KHR_materials_transmission", "transmissionFactor", "Extensions.TransmissionFactor", Some 0)]%string%Q.
(** Colours. *)
Definition extension_colors : list (string * string * string * string) :=
  [("Extensions.SpecularExt", "KHR_materials_specular", "specularColorFactor", "Extensions.SpecularColorFactor");
   ("Extensions.Sheen", "KHR_materials_sheen", "sheenColorFactor", "Extensions.SheenColorFactor");
   ("Extensions.Volume", "KHR_materials_volume", "attenuationColor", "Extensions.AttenuationColor")]%string.

Definition number_given (e : matex2 Q) (k : string) : option Q := match value k (exParams e) with Some (PFloat x) => Some x | _ => None end.
Definition color_given (e : matex2 Q) (k : string) : option (list Q) := match value k (exParams e) with Some (PColor c) => Some c | _ => None end.
Definition present (t : tmat) (x : string) : Prop := value x (tmExts t) <> None.
Definition entry (t : tmat) (x key : string) : option extval := match value x (tmExts t) with Some l => value key l | None => None end.
(** What the entry means. *)
Definition number_of (t : tmat) (x key : string) (def : option Q) : option Q := match entry t x key with Some (XNum v) => Some v | _ => def end.
Definition same_number (a b : option Q) : Prop := match a, b with Some x, Some y => (x == y)%Q | None, None => True | _, _ => False end.

(** The material uses the glTF shader. *)
Definition gltf_shader (m : material Q) (e : matex2 Q) : Prop := mtEx2 m = Some e /\ exName e = "glTF"%string.
(** A number that is written: not zero, or zero is what a missing one means. *)
Definition writable (v : Q) (def : option Q) : Prop := ~ (v == 0)%Q \/ same_number def (Some 0%Q).
