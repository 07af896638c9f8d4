(** What is to be in a .vrm file. *)
From Coq Require Import String Ascii List ZArith Bool.
From Verif.Model Require Import Num Vec VrmConfig VrmSave.
From Verif.Spec Require Import VrmSpec.
Import ListNotations.
Local Open Scope string_scope.
Local Open Scope list_scope.

(** Bone [b] is to be node [id]: by the first mapping that is decided, or a required bone by its own name. *)
Definition bone_is (nodes : list vnode) (maps : list bmap) (b : string) (id : nat) (d : bool) : Prop :=
  (exists m, decides nodes maps b m /\ names_of m <> [] /\ chosen nodes (names_of m) id /\ d = (bmDefault m || negb (bmLimits m))%bool) \/
  ((forall m, In m maps -> bmBone m = b -> undecided nodes m) /\ In b required_bones /\ last_named nodes b id /\ d = true).
(** The first list is the beginning of the second. *)
Definition begins {A : Type} (a b : list A) : Prop := exists c, b = a ++ c.
(** The preset of a configuration, if it names one. *)
Definition preset_of {T M : Type} (load : string -> option (config T M)) (conf : config T M) (p : option (config T M)) : Prop :=
  match p with Some q => cfPreset conf <> "" /\ load (cfPreset conf) = Some q | None => cfPreset conf = "" end.
Definition preset_bones {T M : Type} (p : option (config T M)) : list bmap := match p with Some q => cfBones q | None => [] end.
Definition preset_mats {T M : Type} (p : option (config T M)) : list (string * msetting T) :=
  match p with Some q => match cfMats q with Some l => l | None => [] end | None => [] end.
Definition preset_morphs {T M : Type} (p : option (config T M)) : list mmap := match p with Some q => cfMorphs q | None => [] end.
Definition own_mats {T M : Type} (c : config T M) : list (string * msetting T) := match cfMats c with Some l => l | None => [] end.
(** A setting asks for an unlit material: the own setting of the name, that of the preset, then those of the star. *)
Definition asks_unlit {T : Type} (own preset : list (string * msetting T)) (name : string) : Prop :=
  exists s, msUnlit s = true /\
    (In (name, s) own \/ (forall s', ~ In (name, s') own) /\
      (In (name, s) preset \/ (forall s', ~ In (name, s') preset) /\
        (In ("*", s) own \/ (forall s', ~ In ("*", s') own) /\ In ("*", s) preset))).
Definition preset_springs {T M : Type} (p : option (config T M)) : list (list nat * list string) := match p with Some q => cfSprings q | None => [] end.
Definition preset_colliders {T M : Type} (p : option (config T M)) : list (list (collider T) * string) := match p with Some q => cfColliders q | None => [] end.
(** What the document had. *)
Definition old_morphs {T M : Type} (d : vdoc T M) : list bgroup := match vdExt d with Some e => veMorphs e | None => [] end.
Definition old_springs {T M : Type} (d : vdoc T M) : list (list nat) := match vdExt d with Some e => veSprings e | None => [] end.
Definition old_colliders {T M : Type} (d : vdoc T M) : list (list (collider T) * nat) := match vdExt d with Some e => veColliders e | None => [] end.
