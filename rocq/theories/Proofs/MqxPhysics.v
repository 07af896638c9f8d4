(** The element of physics in a plugin file. *)
From Coq Require Import String List ZArith Bool Lia.
From Verif.Model Require Import Num Vec Matrix Mqo MqoDoc MqoText Mqx.
From Verif.Spec Require Import MqxSpec MqxPhysicsSpec.
Import ListNotations.
Local Open Scope string_scope.
Local Open Scope list_scope.

Section P.
Context {T : Type} {N : Num T}.
Lemma map_each {A B} (f : A -> B) (R : A -> B -> Prop) l : (forall a, R a (f a)) -> Forall2 R l (map f l).
Proof. intros H. induction l; constructor; auto. Qed.
Lemma vec_written (e : xelem T) n v : child e n (w_vec n v) -> vec_is e n v.
Proof. intros C. exists (w_vec n v). split; [exact C|]. intros d. repeat split. Qed.
Ltac opts := repeat match goal with
  | |- context [o_int _ ?z] => unfold o_int at 1; destruct (Z.eqb_spec z 0)
  | |- context [o_str _ ?s] => unfold o_str at 1; destruct (String.eqb_spec s "")
  | |- context [if qyKinematic ?b then _ else _] => destruct (qyKinematic b)
  end; cbn; try congruence; try reflexivity.
Lemma shape_written (s : qshape T) : shape_is s (w_shape s).
Proof. split; [reflexivity|]. split; [reflexivity|]. repeat split; apply vec_written; reflexivity. Qed.
Lemma body_written (b : qbody T) : body_is b (w_body b).
Proof.
  split; [reflexivity|]. split; [left; reflexivity|].
  split; [unfold attr_is, w_body; cbn [el_attrs]; opts|]. split; [unfold attr_is, w_body; cbn [el_attrs]; opts|].
  split; [unfold attr_is, w_body; cbn [el_attrs]; opts|]. split; [unfold attr_is, w_body; cbn [el_attrs]; opts|].
  repeat (split; [reflexivity|]). eexists. split; [reflexivity|]. apply map_each. exact shape_written.
Qed.
Lemma joint_written (j : qjoint T) : joint_is j (w_joint j).
Proof.
  split; [reflexivity|]. do 4 (split; [unfold attr_is, w_joint; cbn [el_attrs]; opts|]). repeat split; apply vec_written; reflexivity.
Qed.
Lemma physics_part (p : physplugin T) : physics_is p (w_physics p).
Proof.
  split; [reflexivity|]. split; (eexists; split; [reflexivity|]; apply map_each); [exact body_written|exact joint_written].
Qed.
Theorem physics_written os (ps : list (plugin T)) name p : NoDup (map kind ps) -> In (PPhysics p) ps -> exists e, child (write_mqx os ps name) "Plugin.7A6E6962.43594850" e /\ physics_is p e.
Proof.
  intros ND H. exists (w_physics p). split; [|apply physics_part]. unfold child, write_mqx. cbn [el_kids]. change (filter _ (texted "IncludedBy" (XStr name) :: ?l)) with (filter (fun k : xelem T => String.eqb (el_name k) "Plugin.7A6E6962.43594850") l).
  assert (X : forall q : plugin T, String.eqb (el_name (w_plugin (pre_plugin os q))) "Plugin.7A6E6962.43594850" = Nat.eqb (kind q) 2) by (intros [q|q|q]; reflexivity).
  assert (Z : forall l : list (plugin T), ~ In 2 (map kind l) -> filter (fun k : xelem T => String.eqb (el_name k) "Plugin.7A6E6962.43594850") (map w_plugin (map (pre_plugin os) l)) = []).
  { induction l as [|q l IHl]; intros NI; [reflexivity|]. cbn [map filter]. rewrite X. destruct (Nat.eqb_spec (kind q) 2) as [E|E]; [destruct NI; left; exact E|]. apply IHl. intros I. apply NI. right. exact I. }
  induction ps as [|q ps IH]; [destruct H|]. cbn [map] in ND. inversion ND; subst. cbn [map filter]. rewrite X. destruct H as [->|H].
  - change (Nat.eqb (kind (PPhysics p)) 2) with true. cbv iota. rewrite Z by assumption. reflexivity.
  - destruct (Nat.eqb_spec (kind q) 2) as [E|E]; [|now apply IH]. exfalso. apply H2. rewrite E. apply (in_map kind) in H. exact H.
Qed.
End P.
