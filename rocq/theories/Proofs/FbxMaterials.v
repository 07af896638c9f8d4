(** Materials of converted FBX documents. *)
From Coq Require Import String List ZArith Bool.
From Verif.Model Require Import Num Vec Mqo MqoDoc Fbx2Mqo.
From Verif.Spec Require Import FbxMaterialSpec.
From Verif.Proofs Require Import FbxWalk.
Import ListNotations.
Local Open Scope string_scope.
Local Open Scope list_scope.

Section S.
Context {T : Type} {N : Num T}.
Lemma number_ok l (def : T) : number_is l def (attr_num l 0 def).
Proof. destruct l as [|[x|] l]; reflexivity. Qed.
Lemma color_ok l (def : T) : color_is l def (attr_vec l def def def).
Proof. split; [intros r g b rest ->; reflexivity|intros ->; reflexivity]. Qed.
Lemma grey_ok col fac (k : T) : grey_is col fac (vx (v3scale (attr_vec col nzero nzero nzero) (attr_num fac 0 k))).
Proof. intros c rest f rest' -> ->. reflexivity. Qed.
Lemma find_filter {A} (f : A -> bool) l : find f l = match filter f l with [] => None | x :: _ => Some x end.
Proof. induction l as [|x l IH]; [reflexivity|]. cbn. destruct (f x); [reflexivity|exact IH]. Qed.
Lemma material_ok tenth (d : fdoc T) o : material_is tenth d o (convert_material tenth d o).
Proof.
  intros m E. unfold convert_material. rewrite E. cbn [mtName mtColor mtDiffuse mtPower mtSpecular mtAmbient mtEmission mtTexture qx qy qz qw]. split; [reflexivity|]. split; [apply color_ok|].
  split; [apply number_ok|]. split; [apply number_ok|]. split; [apply number_ok|]. split; [apply grey_ok|]. split; [apply grey_ok|]. split; [eexists; split; [apply grey_ok|reflexivity]|]. rewrite find_filter. split.
  - intros t file -> F. now rewrite F.
  - now intros ->.
Qed.
Lemma fbx_materials tenth facet (d : fdoc T) fuel op objs base st mats : opOverride op = None -> convert_fbx tenth facet d fuel op objs base = FOk (st, mats) -> Forall2 (material_is tenth d) (fdMats d) mats.
Proof.
  unfold convert_fbx. intros O H. rewrite O in H. unbind H. assert (E' : mats = map (convert_material tenth d) (fdMats d)).
  { destruct (negb _); [destruct (find_child_model d (opTarget op)); [unbind H; now injection H|now injection H]|]. unbind H. now injection H. }
  rewrite E'. clear. generalize (fdMats d). induction l; constructor; [apply material_ok|assumption].
Qed.
End S.
