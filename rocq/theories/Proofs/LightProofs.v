(** Lights (C107). *)
From Coq Require Import String List ZArith Reals Bool Lia Lra.
From Verif.Model Require Import Num NumR Vec Matrix Euler Mqo MqoDoc MqoTransform Unity UnityShape Unity2Mqo Mqo2Gltf Mqo2GltfShared Lights.
From Verif.Spec Require Import GeomSpec UnitySpec SceneSpec LightSpec.
From Verif.Proofs Require Import MatrixLemmas SceneProofs.
Import ListNotations.
Local Open Scope R_scope.

Lemma start_nth {A} (oss : list (list A)) : forall j x os, nth_error oss j = Some (x :: os) -> nth_error (concat oss) (start oss j) = Some x.
Proof.
  unfold start. induction oss as [|o oss IH]; intros [|j] x os E; try discriminate; cbn in *.
  - injection E as ->. reflexivity.
  - rewrite app_length, nth_error_app2 by lia. replace (length o + length (concat (firstn j oss)) - length o)%nat with (length (concat (firstn j oss))) by lia. exact (IH j x os E).
Qed.
Lemma lit_start scale sc vs oss lss : lit scale sc vs oss lss -> (forall j, start lss j = start oss j) /\ length (concat lss) = length (concat oss).
Proof.
  intros H. induction H as [|v vs o x l os ls oss lss _ _ L _ _ [IH1 IH2]]; [split; [intros [|j]|]; reflexivity|]. split.
  - intros [|j]; [reflexivity|]. unfold start in *. cbn. rewrite !app_length, IH1, L. reflexivity.
  - cbn. rewrite !app_length, IH2, L. reflexivity.
Qed.
Lemma lit_block scale sc vs oss lss : lit scale sc vs oss lss -> forall j v, nth_error vs j = Some v ->
  exists o x l os ls, nth_error sc (vObj v) = Some o /\ nth_error oss j = Some (x :: os) /\ nth_error lss j = Some (l :: ls) /\ lit_by scale o v x l.
Proof.
  intros H. induction H as [|v vs o x l os ls oss lss E B _ _ _ IH]; intros [|j] w Ew; try discriminate.
  - injection Ew as <-. exists o, x, l, os, ls. auto.
  - exact (IH j w Ew).
Qed.
Lemma nth_none {A} (l : list (option A)) : Forall (eq None) l -> forall k u, nth_error l k <> Some (Some u).
Proof. intros F k u E. apply nth_error_In in E. rewrite Forall_forall in F. discriminate (F _ E). Qed.
Lemma lit_from scale sc vs oss lss : lit scale sc vs oss lss -> forall k u, nth_error (concat lss) k = Some (Some u) ->
  exists j v o, k = start oss j /\ nth_error vs j = Some v /\ nth_error sc (vObj v) = Some o /\ goTr o <> None /\ goLight o = Some u.
Proof.
  intros H. induction H as [|v vs o x l os ls oss lss E B L N H IH]; intros k u Ek; [destruct k; discriminate|]. cbn in Ek. destruct k as [|k].
  - injection Ek as ->. exists 0%nat, v, o. unfold lit_by in B. destruct (goTr o); [|discriminate]. destruct (goLight o); [|discriminate]. destruct B as [B _]. injection B as <-. repeat split; auto; discriminate.
  - cbn in Ek. destruct (Nat.lt_ge_cases k (length ls)) as [Lt|Ge].
    + rewrite nth_error_app1 in Ek by exact Lt. destruct (nth_none _ N _ _ Ek).
    + rewrite nth_error_app2 in Ek by exact Ge. destruct (IH _ _ Ek) as (j & w & o' & E1 & E2 & E3). exists (S j), w, o'. split; [|split; [exact E2|exact E3]]. unfold start in *. cbn. rewrite app_length, <- E1, <- L. lia.
Qed.

(** The numbers of lights. *)
Definition numbers (is : list (option nat)) : list nat := flat_map (fun i => match i with Some i => [i] | None => [] end) is.
Lemma node_lights_ok on : forall os es n is ps, length es = length os -> node_lights on os es n = (is, ps) ->
  length is = length os /\ numbers is = seq n (length ps) /\
  forall k o e, nth_error os k = Some o -> nth_error es k = Some e ->
    match (if oVisible o && on then e else None) with
    | Some p => exists i, nth_error is k = Some (Some (n + i)%nat) /\ nth_error ps i = Some p
    | None => nth_error is k = Some None
    end.
Proof.
  induction os as [|o os IH]; intros [|e es] n is ps L H; try discriminate.
  - injection H as <- <-. repeat split. intros [|k]; discriminate.
  - injection L as L. cbn [node_lights] in H. destruct (if oVisible o && on then e else None) as [p|] eqn:E.
    + destruct (node_lights on os es (S n)) as [is' ps'] eqn:R. injection H as <- <-. destruct (IH _ _ _ _ L R) as (A & B & C). split; [cbn; rewrite A; reflexivity|]. split; [change (n :: numbers is' = n :: seq (S n) (length ps')); rewrite B; reflexivity|].
      intros [|k] o' e' Eo Ee; cbn in Eo, Ee |- *.
      * injection Eo as <-. injection Ee as <-. rewrite E. exists 0%nat. rewrite Nat.add_0_r. split; reflexivity.
      * specialize (C k o' e' Eo Ee). destruct (if oVisible o' && on then e' else None); [|exact C]. destruct C as (i & C1 & C2). exists (S i). rewrite Nat.add_succ_r. split; [exact C1|exact C2].
    + destruct (node_lights on os es n) as [is' ps'] eqn:R. injection H as <- <-. destruct (IH _ _ _ _ L R) as (A & B & C). split; [cbn; rewrite A; reflexivity|]. split; [exact B|].
      intros [|k] o' e' Eo Ee; cbn in Eo, Ee |- *; [|exact (C k o' e' Eo Ee)]. injection Eo as <-. injection Ee as <-. rewrite E. reflexivity.
Qed.

(** The matrix of a node. *)
Section Nodes.
Context {T : Type} {N : Num T}.
Variables (scale centi eps : T) (unlit : bool) (acc0 : list (vec3 T)) (acc0uv : list (vec2 T)).
Lemma conv_matrix lights bones node_of mmap morphs all : forall os cs ns,
  conv_shared scale centi eps unlit acc0 acc0uv false lights bones node_of mmap morphs all os cs = Some ns ->
  length ns = length os /\ forall k o n, nth_error os k = Some o -> nth_error ns k = Some n -> snMatrix n = if oVisible (soObj o) then node_matrix scale lights o None else None.
Proof.
  induction os as [|o os IH]; intros cs ns H; cbn [conv_shared] in H; [injection H as <-; split; [reflexivity|intros [|k]; discriminate]|].
  destruct (morphs (soObj o)) as [mo|]; [|discriminate]. destruct (oVisible (soObj o)) eqn:V.
  - assert (F : find_shared false all cs o = Some None) by (unfold find_shared; destruct (soKey o); reflexivity). rewrite F in H.
    destruct (object_parts _ _ _ _ _ _ _ _) as [p|]; [|discriminate]. cbn [option_map] in H. destruct (shared_mesh _ _ _ _ _ _ _) as [[mesh c]|]; [|discriminate]. cbv zeta in H.
    match type of H with option_map _ ?r = _ => destruct r as [ns'|] eqn:R; [|discriminate] end. injection H as <-. destruct (IH _ _ R) as [A B]. split; [cbn; rewrite A; reflexivity|].
    intros [|k] o' n Eo En; cbn in Eo, En; [|exact (B k o' n Eo En)]. injection Eo as <-. injection En as <-. rewrite V. reflexivity.
  - match type of H with option_map _ ?r = _ => destruct r as [ns'|] eqn:R; [|discriminate] end. injection H as <-. destruct (IH _ _ R) as [A B]. split; [cbn; rewrite A; reflexivity|].
    intros [|k] o' n Eo En; cbn in Eo, En; [|exact (B k o' n Eo En)]. injection Eo as <-. injection En as <-. rewrite V. reflexivity.
Qed.
(** Meshes and skins do not depend on the option. *)
Lemma conv_lights bones node_of mmap morphs all : forall os cs ns0 ns,
  conv_shared scale centi eps unlit acc0 acc0uv false false bones node_of mmap morphs all os cs = Some ns0 ->
  conv_shared scale centi eps unlit acc0 acc0uv false true bones node_of mmap morphs all os cs = Some ns ->
  Forall2 (fun n0 n => snMesh n = snMesh n0 /\ snJoints n = snJoints n0) ns0 ns.
Proof.
  induction os as [|o os IH]; intros cs ns0 ns H0 H; cbn [conv_shared] in H0, H; [injection H0 as <-; injection H as <-; constructor|].
  destruct (morphs (soObj o)) as [mo|]; [|discriminate]. destruct (oVisible (soObj o)).
  - assert (F : find_shared false all cs o = Some None) by (unfold find_shared; destruct (soKey o); reflexivity). rewrite F in H0, H.
    destruct (object_parts _ _ _ _ _ _ _ _) as [p|]; [|discriminate]. cbn [option_map] in H0, H. destruct (shared_mesh _ _ _ _ _ _ _) as [[mesh c]|]; [|discriminate]. cbv zeta in H0, H.
    match type of H0 with option_map _ ?r = _ => destruct r as [ns0'|] eqn:R0; [|discriminate] end. match type of H with option_map _ ?r = _ => destruct r as [ns'|] eqn:R; [|discriminate] end.
    injection H0 as <-. injection H as <-. constructor; [split; reflexivity|]. exact (IH _ _ _ R0 R).
  - match type of H0 with option_map _ ?r = _ => destruct r as [ns0'|] eqn:R0; [|discriminate] end. match type of H with option_map _ ?r = _ => destruct r as [ns'|] eqn:R; [|discriminate] end.
    injection H0 as <-. injection H as <-. constructor; [split; reflexivity|]. exact (IH _ _ _ R0 R).
Qed.
End Nodes.

Lemma light_matrix gscale scale path o t : soLight o = true -> oInternal (soObj o) = Some t -> (forall p, mat_apply t p = doc_place scale path p) ->
  exists m, node_matrix gscale true o None = Some m /\ affine m /\ shines gscale scale path m.
Proof.
  intros Hl Ht F. unfold node_matrix. rewrite Hl, Ht. cbn [andb orb]. eexists. split; [reflexivity|]. split; [repeat split|].
  pose proof (F centre) as F0. pose proof (F behind) as F1. unfold doc_place in F0, F1.
  assert (M0 : mirror centre = centre) by (unfold mirror, centre; mproj; rnum; comps; ring). assert (M1 : mirror behind = ahead) by (unfold mirror, behind, ahead; mproj; rnum; comps; ring). rewrite M0 in F0. rewrite M1 in F1.
  unfold shines. rewrite <- F0.
  assert (D : v3scale (mirror (v3sub (place path ahead) (place path centre))) scale = v3sub (mat_apply t behind) (mat_apply t centre)).
  { rewrite F0, F1. destruct (place path ahead) as [a b c], (place path centre) as [a' b' c']. unfold v3scale, v3sub, mirror; mproj; rnum; comps; ring. }
  rewrite D. clear. unfold mat_translation_scale, mat_apply, v3sub, v3scale, behind, centre; mproj; rnum. split; comps; ring.
Qed.

Lemma nth_combine {A B} (la : list A) (lb : list B) : forall k a b, nth_error la k = Some a -> nth_error lb k = Some b -> nth_error (combine la lb) k = Some (a, b).
Proof. revert lb. induction la as [|x la IH]; intros [|y lb] [|k] a b Ea Eb; cbn in *; try discriminate; [injection Ea as ->; injection Eb as ->; reflexivity|auto]. Qed.

Theorem scene_lit scale on load import sc fuel roots st gscale centi eps unlit acc0 acc0uv bones node_of mmap morphs ns is ps :
  convert scale on load import fuel sc roots = Some st -> scene_lights true st = (is, ps) ->
  conv_shared gscale centi eps unlit acc0 acc0uv false true bones node_of mmap morphs (scene_objects st) (scene_objects st) [] = Some ns ->
  exists vs oss, walks sc [] true (map Some roots) vs /\ uObjs st = concat oss /\ blocks scale load import sc (uMats st) 0 vs oss /\
    length is = length (uObjs st) /\ numbers is = seq 0 (length ps) /\
    (forall j v o u, nth_error vs j = Some v -> nth_error sc (vObj v) = Some o -> goTr o <> None -> goLight o = Some u ->
       exists x, nth_error (uObjs st) (start oss j) = Some x /\
       if oVisible x
       then exists i n m, nth_error is (start oss j) = Some (Some i) /\ nth_error ps i = Some (light_params u) /\
            nth_error ns (start oss j) = Some n /\ snMatrix n = Some m /\ affine m /\ shines gscale scale (vPath v) m
       else nth_error is (start oss j) = Some None) /\
    (forall k i, nth_error is k = Some (Some i) -> exists j v o u, k = start oss j /\ nth_error vs j = Some v /\ nth_error sc (vObj v) = Some o /\ goTr o <> None /\ goLight o = Some u /\ nth_error ps i = Some (light_params u)).
Proof.
  intros H HL HN. destruct (convert_ok _ _ _ _ _ _ _ _ H) as (vs & oss & bss & W & O & _ & Bl & _ & lss & Li & L). exists vs, oss. split; [exact W|]. split; [exact O|]. split; [exact Bl|].
  destruct (lit_start _ _ _ _ _ L) as [St Len]. unfold scene_lights in HL.
  assert (Le : length (map (option_map light_params) (uLights st)) = length (uObjs st)) by (rewrite map_length, Li, O; exact Len).
  destruct (node_lights_ok true _ _ _ _ _ Le HL) as (A & B & C). split; [exact A|]. split; [exact B|]. destruct (conv_matrix _ _ _ _ _ _ _ _ _ _ _ _ _ _ _ HN) as [Ln M].
  assert (Lo : length (scene_objects st) = length (uObjs st)) by (unfold scene_objects; rewrite map_length, combine_length; rewrite map_length in Le; lia). split.
  - intros j v o u Ev Eo Nt El. destruct (lit_block _ _ _ _ _ L j v Ev) as (o' & x & l & os & ls & Eo' & Ex & Ell & By). rewrite Eo in Eo'. injection Eo' as <-. unfold lit_by in By. destruct (goTr o); [|contradiction]. rewrite El in By. destruct By as (-> & t & It & At & Ft).
    exists x. pose proof (start_nth _ _ _ _ Ex) as Nx. pose proof (start_nth _ _ _ _ Ell) as Nl. rewrite St in Nl. rewrite <- O in Nx. rewrite <- Li in Nl. split; [exact Nx|].
    assert (Ne : nth_error (map (option_map light_params) (uLights st)) (start oss j) = Some (Some (light_params u))) by (rewrite nth_error_map, Nl; reflexivity).
    specialize (C _ _ _ Nx Ne). destruct (oVisible x) eqn:V; cbn [andb] in C; [|exact C]. destruct C as (i & C1 & C2).
    assert (Ns : nth_error (scene_objects st) (start oss j) = Some (mkSO x None true)) by (unfold scene_objects; rewrite nth_error_map, (nth_combine _ _ _ _ _ Nx Nl); reflexivity).
    destruct (nth_error ns (start oss j)) as [n|] eqn:En. 2:{ apply nth_error_None in En. assert (start oss j < length (uObjs st))%nat by (apply nth_error_Some; rewrite Nx; discriminate). lia. }
    pose proof (M _ _ _ Ns En) as Mn. cbn [soObj] in Mn. rewrite V in Mn. destruct (light_matrix gscale scale (vPath v) (mkSO x None true) t eq_refl It Ft) as (m & Em & Am & Sm). exists i, n, m.
    split; [exact C1|]. split; [exact C2|]. split; [reflexivity|]. split; [congruence|]. split; [exact Am|exact Sm].
  - intros k i Ek. assert (Lk : (k < length (uObjs st))%nat) by (rewrite <- A; apply nth_error_Some; rewrite Ek; discriminate).
    destruct (nth_error (uObjs st) k) as [x|] eqn:Ex; [|apply nth_error_None in Ex; lia]. destruct (nth_error (uLights st) k) as [l|] eqn:El. 2:{ apply nth_error_None in El. rewrite map_length in Le. lia. }
    assert (Ne : nth_error (map (option_map light_params) (uLights st)) k = Some (option_map light_params l)) by (rewrite nth_error_map, El; reflexivity). specialize (C _ _ _ Ex Ne).
    destruct l as [u|]; [|cbn in C; destruct (oVisible x && true); rewrite Ek in C; discriminate]. cbn [option_map] in C. destruct (oVisible x && true); [|rewrite Ek in C; discriminate]. destruct C as (i' & C1 & C2). rewrite Ek in C1. injection C1 as ->.
    rewrite Li in El. destruct (lit_from _ _ _ _ _ L _ _ El) as (j & v & o & E1 & E2 & E3 & E4 & E5). exists j, v, o, u. repeat (split; [assumption|]). exact C2.
Qed.
