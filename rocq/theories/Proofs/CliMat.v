(** Proofs about the material options (C80). *)
From Coq Require Import String Ascii List ZArith Bool Lia.
From Verif.Model Require Import Num Vec Mqo MqoDoc Gltf Mqo2Gltf Cli.
From Verif.Spec Require Import CliSpec.
From Verif.Proofs Require Import GltfDoc CliProofs.
Import ListNotations.
Local Open Scope string_scope.
Local Open Scope list_scope.

Section Mats.
Context {T : Type} {N : Num T}.
Variable glob : string -> string -> bool.
Variable parse_float : string -> option T.

Lemma same_look_refl (m : material T) : same_look m m.
Proof. repeat split. Qed.
Lemma ignore_hidden (m : material T) : hidden_of nzero m (ignore m).
Proof. repeat split. Qed.
Lemma matches_iff ps name : matches glob ps name = true <-> exists p, In p ps /\ glob p name = true.
Proof. unfold matches. rewrite existsb_exists. reflexivity. Qed.
Lemma hide_mat_nth ps (ms : list (material T)) : Forall (without ",") ps -> comma_list ps <> "" ->
  length (hide_mat glob (comma_list ps) ms) = length ms /\
  forall i m, nth_error ms i = Some m -> exists m', nth_error (hide_mat glob (comma_list ps) ms) i = Some m' /\
    ((exists p, In p ps /\ glob p (mtName m) = true) -> hidden_of nzero m m') /\ (~ (exists p, In p ps /\ glob p (mtName m) = true) -> m' = m).
Proof.
  intros F E. unfold hide_mat. destruct (String.eqb_spec (comma_list ps) "") as [Q|_]; [contradiction|]. rewrite split_list by (try exact F; intros ->; apply E; reflexivity).
  split; [apply map_length|]. intros i m Ei. eexists. split; [rewrite nth_error_map, Ei; reflexivity|]. pose proof (matches_iff ps (mtName m)) as M. destruct (matches glob ps (mtName m)).
  - split; [intros _; apply ignore_hidden|intros Nx; exfalso; apply Nx; apply M; reflexivity].
  - split; [intros X; apply M in X; discriminate|reflexivity].
Qed.
Lemma unlit_nth ps (ms : list (material T)) : Forall (without ",") ps -> comma_list ps <> "" ->
  length (unlit glob (comma_list ps) ms) = length ms /\
  forall i m, nth_error ms i = Some m -> exists m', nth_error (unlit glob (comma_list ps) ms) i = Some m' /\
    ((exists p, In p ps /\ glob p (mtName m) = true) -> mtName m' = mtName m /\ mtColor m' = mtColor m /\ same_look m m' /\ mtShader m' = 1%Z /\ mtEx2 m' = None) /\
    (~ (exists p, In p ps /\ glob p (mtName m) = true) -> m' = m).
Proof.
  intros F E. unfold unlit. destruct (String.eqb_spec (comma_list ps) "") as [Q|_]; [contradiction|]. rewrite split_list by (try exact F; intros ->; apply E; reflexivity).
  split; [apply map_length|]. intros i m Ei. eexists. split; [rewrite nth_error_map, Ei; reflexivity|]. pose proof (matches_iff ps (mtName m)) as M. destruct (matches glob ps (mtName m)).
  - split; [intros _; repeat split|intros Nx; exfalso; apply Nx; apply M; reflexivity].
  - split; [intros X; apply M in X; discriminate|reflexivity].
Qed.

Lemma param_set_get (l : list (string * param T)) k p : param_of (param_set l k p) k = Some p.
Proof.
  induction l as [|[k' p'] l IH]; cbn; [rewrite String.eqb_refl; reflexivity|]. destruct (String.eqb k' k) eqn:E; cbn; [rewrite String.eqb_refl; reflexivity|]. rewrite E. exact IH.
Qed.
Lemma param_set_other (l : list (string * param T)) k p : same_params_but k l (param_set l k p).
Proof.
  intros k0 p0 Hk. induction l as [|[k' p'] l IH]; cbn; [split; [intros [E|[]]; congruence|intros []]|]. destruct (String.eqb_spec k' k) as [->|_]; cbn.
  - split; (intros [E|E]; [congruence|right; exact E]).
  - rewrite IH. reflexivity.
Qed.
Lemma set_alpha_mode_ex (m : material T) k : exists e, mtEx2 (set_alpha_mode m k) = Some e /\ exName e = "glTF" /\ param_of (exParams e) "AlphaMode" = Some (PInt k) /\
  (forall e0, mtEx2 m = Some e0 -> exName e0 = "glTF" -> exType e = exType e0 /\ exMapping e = exMapping e0 /\ exMappingParams e = exMappingParams e0 /\ same_params_but "AlphaMode" (exParams e0) (exParams e)).
Proof.
  unfold set_alpha_mode, set_shader. cbn [mtEx2]. destruct (mtEx2 m) as [e0|].
  - destruct (String.eqb_spec (exName e0) "glTF") as [En|En].
    + eexists. split; [reflexivity|]. cbn. split; [exact En|]. split; [apply param_set_get|]. intros e1 E1 _. injection E1 as <-. repeat split; apply param_set_other; assumption.
    + eexists. split; [reflexivity|]. cbn. split; [reflexivity|]. split; [reflexivity|]. intros e1 E1 E2. injection E1 as <-. contradiction.
  - eexists. split; [reflexivity|]. cbn. split; [reflexivity|]. split; [reflexivity|]. intros e1 E1. discriminate.
Qed.

Variables (force : bool) (op rough : T) (ta : material T -> bool).
Definition export (m : material T) : gmat T := convert_material force op rough ta m.
Lemma export_ex (m : material T) e : mtEx2 m = Some e -> exName e = "glTF" ->
  gtAlpha (export m) = (let a := int_param e "AlphaMode" in if (a =? 2)%Z then GMask (float_param e "AlphaCutOff") else if (a =? 3)%Z then GBlend else GOpaque).
Proof. intros A B. unfold export, convert_material. rewrite A, B. reflexivity. Qed.
Lemma export_color (m : material T) : gtColor (export m) = mtColor m.
Proof. unfold export, convert_material. destruct (mtEx2 m) as [e|]; [destruct (String.eqb (exName e) "glTF")|]; reflexivity. Qed.

Lemma alpha_mat_effect value (m m' : material T) : alpha_mat parse_float value m = Some m' -> alpha_effect export nzero none (fun a => nltb a op) parse_float value m m'.
Proof.
  unfold alpha_mat, alpha_effect. destruct (String.eqb_spec value "opaque") as [->|N1].
  { intros E. injection E as <-. destruct (set_alpha_mode_ex m 1) as (e & E1 & E2 & E3 & _). split; [repeat split|]. split; [reflexivity|]. split.
    - intros _. split; [reflexivity|]. split; [reflexivity|]. match goal with |- gtAlpha (export ?x) = _ => rewrite (export_ex x e E1 E2) | |- exists c, gtAlpha (export ?x) = _ => rewrite (export_ex x e E1 E2) end. unfold int_param. rewrite E3. reflexivity.
    - split; [discriminate|]. split; [discriminate|]. split; [discriminate|]. intros Nx. exfalso. apply Nx. left. reflexivity. }
  destruct (String.eqb_spec value "mask") as [->|N2].
  { intros E. injection E as <-. destruct (set_alpha_mode_ex m 2) as (e & E1 & E2 & E3 & _). split; [repeat split|]. split; [reflexivity|]. split; [discriminate|]. split.
    - intros _. split; [reflexivity|]. split; [reflexivity|]. match goal with |- gtAlpha (export ?x) = _ => rewrite (export_ex x e E1 E2) | |- exists c, gtAlpha (export ?x) = _ => rewrite (export_ex x e E1 E2) end. unfold int_param. rewrite E3. cbn. eexists. reflexivity.
    - split; [discriminate|]. split; [discriminate|]. intros Nx. exfalso. apply Nx. right; left. reflexivity. }
  destruct (String.eqb_spec value "blend") as [->|N3].
  { intros E. injection E as <-. destruct (set_alpha_mode_ex m 3) as (e & E1 & E2 & E3 & _). split; [repeat split|]. split; [reflexivity|]. split; [discriminate|]. split; [discriminate|]. split.
    - intros _. split; [reflexivity|]. split; [reflexivity|]. match goal with |- gtAlpha (export ?x) = _ => rewrite (export_ex x e E1 E2) | |- exists c, gtAlpha (export ?x) = _ => rewrite (export_ex x e E1 E2) end. unfold int_param. rewrite E3. reflexivity.
    - split; [discriminate|]. intros Nx. exfalso. apply Nx. right; right; left. reflexivity. }
  destruct (String.eqb_spec value "0") as [->|N4].
  { intros E. injection E as <-. split; [repeat split|]. split; [reflexivity|]. split; [discriminate|]. split; [discriminate|]. split; [discriminate|]. split; [intros _; apply ignore_hidden|]. intros Nx. exfalso. apply Nx. right; right; right; left. reflexivity. }
  destruct (parse_float value) as [a|]; [|discriminate]. intros E. injection E as <-.
  destruct (String.eqb_spec (shader_name m) "glTF") as [G|G].
  - destruct (set_alpha_mode_ex m 3) as (e & E1 & E2 & E3 & _). split; [repeat split|]. split; [reflexivity|]. split; [intros X; contradiction|]. split; [intros X; contradiction|]. split; [intros X; contradiction|]. split; [intros X; contradiction|].
    intros _. exists a. split; [reflexivity|]. split; [reflexivity|]. split; [reflexivity|]. intros _. match goal with |- gtAlpha (export ?x) = _ => rewrite (export_ex x e E1 E2) | |- exists c, gtAlpha (export ?x) = _ => rewrite (export_ex x e E1 E2) end. unfold int_param. rewrite E3. reflexivity.
  - split; [repeat split|]. split; [reflexivity|]. split; [intros X; contradiction|]. split; [intros X; contradiction|]. split; [intros X; contradiction|]. split; [intros X; contradiction|].
    intros _. exists a. split; [reflexivity|]. split; [reflexivity|]. split; [reflexivity|]. intros L. unfold export, convert_material. cbn [mtEx2 set_mat_color mtColor set_w qw].
    destruct (mtEx2 m) as [e|] eqn:Ee; [|cbn; rewrite L; reflexivity]. destruct (String.eqb_spec (exName e) "glTF") as [X|_]; [exfalso; apply G; unfold shader_name; rewrite Ee; exact X|]. cbn. rewrite L. reflexivity.
Qed.
Lemma alpha_one pat value (ms : list (material T)) : without "," (pat ++ ":" ++ value)%string -> without ":" pat ->
  alpha glob parse_float (pat ++ ":" ++ value) ms = all_some (fun m => if glob pat (mtName m) then alpha_mat parse_float value m else Some m) ms.
Proof.
  intros C P. unfold alpha. destruct (String.eqb_spec (pat ++ ":" ++ value) "") as [Q|_]; [destruct pat; discriminate|].
  rewrite split_word by exact C. cbn [alphas]. change (":" ++ value)%string with (String ":" value). rewrite split2_app by exact P. destruct (all_some _ ms); reflexivity.
Qed.
Lemma alphas_app a b (ms : list (material T)) : alphas glob parse_float (a ++ b) ms = match alphas glob parse_float a ms with Some ms' => alphas glob parse_float b ms' | None => None end.
Proof.
  revert ms. induction a as [|p a IH]; intros ms; [reflexivity|]. cbn [app alphas]. destruct (split2 ":" p) as [[pat value]|]; [|apply IH].
  destruct (all_some _ ms); [apply IH|reflexivity].
Qed.
Lemma alpha_list ws (ms : list (material T)) : Forall (without ",") ws -> comma_list ws <> "" -> alpha glob parse_float (comma_list ws) ms = alphas glob parse_float ws ms.
Proof. intros F E. unfold alpha. destruct (String.eqb_spec (comma_list ws) "") as [Q|_]; [contradiction|]. rewrite split_list by (try exact F; intros ->; apply E; reflexivity). reflexivity. Qed.
End Mats.
