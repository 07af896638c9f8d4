(** Proofs about saved .vrm files: the presets and options.  C115. *)
From Coq Require Import String Ascii List ZArith Bool Arith Lia.
From Verif.Model Require Import Num Vec MqoDoc Cli VrmConfig VrmSave.
From Verif.Spec Require Import VrmSpec VrmSaveSpec.
From Verif.Proofs Require Import VrmBones VrmSprings VrmRest VrmSaveProofs.
Import ListNotations.
Local Open Scope string_scope.
Local Open Scope list_scope.

Section Save.
Context {T : Type} {N : Num T}.
Variable M : Type.
Variable meta0 : M.
Variables (read embedded : string -> option string) (there : string -> bool) (exec : string) (parse : string -> option (config T M)).
Variables (pmatch : string -> string -> bool) (order : list nat -> list nat) (fuel : nat).
Notation load := (load_config M read embedded there exec parse).
Notation save := (save_vrm M meta0 read embedded there exec parse pmatch order fuel).

(** The pieces of what is written. *)
Lemma save_pieces physics all name d conf p d' miss :
  save physics all name d = Some (d', true, miss) -> load name = Some conf -> preset_of load conf p ->
  exists e e0 morphs g, vdExt d' = Some e /\ (e0 = fst (get_ext M meta0 d)) /\ vdBodies d' = map (fun _ => None) (vdBodies d) /\
    apply_morphs (cfAll conf || all) (vdNodes d) (vdMeshes d) (cfMorphs conf ++ preset_morphs p) = Some morphs /\ veMorphs e = veMorphs e0 ++ morphs /\
    (if cfSpring conf || physics then detect_group fuel (spring_nodes M d) else Some []) = Some g /\
    apply_springs pmatch order fuel (vdNodes d) ((cfSprings conf ++ g) ++ preset_springs p) (veSprings e0) = Some (veSprings e) /\
    veColliders e = veColliders e0 ++ apply_colliders (map vnName (vdNodes d)) ((cfColliders conf ++ (if cfColl conf || physics then convert_colliders (collider_nodes M d) else [])) ++ preset_colliders p).
Proof.
  intros H L P. unfold save_vrm in H. rewrite L in H.
  destruct (apply_vrm_config _ _ _ _ _ _ _ _ _ _ _ _) as [[d1 ok]|] eqn:E; [|discriminate]. injection H as -> -> <-.
  unfold apply_vrm_config in E. cbn [cfSpring cfColl] in E. destruct (if cfSpring conf || physics then _ else _) as [g|] eqn:Eg; [|discriminate]. unfold apply_config in E.
  cbn [cfPreset cfMeta cfBones cfMorphs cfMats cfAll cfColl cfSpring cfSprings cfColliders vdNodes vdMeshes vdMats vdExt vdUsed get_ext vdBodies] in E.
  set (ge := get_ext M meta0 _) in E. assert (G : ge = get_ext M meta0 d) by reflexivity. clearbody ge. destruct ge as [e0 used0].
  set (mats0 := if Nat.eqb _ _ then _ else _) in E.
  match type of E with match ?X with _ => _ end = _ => destruct X as [[c|]|] eqn:X1; [|discriminate|discriminate] end.
  assert (K : cfAll c = (cfAll conf || all)%bool /\ cfMorphs c = cfMorphs conf ++ preset_morphs p /\ cfSprings c = (cfSprings conf ++ g) ++ preset_springs p /\
     cfColliders c = (cfColliders conf ++ (if cfColl conf || physics then convert_colliders (collider_nodes M d) else [])) ++ preset_colliders p).
  { destruct p as [q|]; cbn [preset_of preset_morphs preset_springs preset_colliders] in *.
    - destruct P as [P1 P2]. apply String.eqb_neq in P1. rewrite P1, P2 in X1. unfold merge_preset in X1. cbn [cfMeta cfBones cfMats cfAll cfMorphs cfSprings cfColliders] in X1.
      destruct (merge_settings (cfMats conf) (match cfMats q with Some l => l | None => [] end)) as [mm|] eqn:MM; [|discriminate]. injection X1 as <-. cbn [cfAll cfMorphs cfSprings cfColliders]. repeat split.
    - rewrite P in X1. cbn [String.eqb] in X1. injection X1 as <-. cbn [cfAll cfMorphs cfSprings cfColliders]. rewrite !app_nil_r. repeat split. }
  destruct K as (K1 & K2 & K3 & K4). destruct (humanoid (vdNodes d) (cfBones c)) as [bones head].
  destruct (apply_settings _ (vdMats d)) as [mats|]; [|discriminate].
  destruct (apply_springs pmatch order fuel (vdNodes d) (cfSprings c) (veSprings e0)) as [springs|] eqn:Sp; [|discriminate].
  destruct (apply_morphs (cfAll c) (vdNodes d) (vdMeshes d) (cfMorphs c)) as [morphs|] eqn:Mo; [|discriminate].
  injection E as <-. eexists. exists e0, morphs, g. cbn [vdExt vdBodies]. split; [reflexivity|]. split; [rewrite <- G; reflexivity|]. split; [reflexivity|]. rewrite <- K1, <- K2. split; [exact Mo|]. cbn [veMorphs veSprings veColliders].
  split; [reflexivity|]. split; [reflexivity|]. rewrite <- K3. split; [exact Sp|]. rewrite <- K4. reflexivity.
Qed.

Lemma last_index_map {A B} (f : A -> B) q l : last_index q (map f l) = last_index (fun x => q (f x)) l.
Proof. induction l as [|x l IH]; [reflexivity|]. cbn [map last_index]. rewrite IH. reflexivity. Qed.
Lemma last_name_named nodes t id : last_index (fun n => String.eqb n t) (map vnName nodes) = Some id <-> last_named nodes t id.
Proof. rewrite last_index_map. apply node_id_some. Qed.
Lemma nth_combine {A B} (a : list A) : forall (b : list B) i, nth_error (combine a b) i = match nth_error a i, nth_error b i with Some x, Some y => Some (x, y) | _, _ => None end.
Proof. induction a as [|x a IH]; intros [|y b] [|i]; cbn; try reflexivity; [destruct (nth_error a i); reflexivity|apply IH]. Qed.
Lemma colliders_app names (a b : list (list (collider T) * string)) : apply_colliders names (a ++ b) = apply_colliders names a ++ apply_colliders names b.
Proof. unfold apply_colliders. apply flat_map_app. Qed.

(** What the options ask for is written. *)
Theorem save_parts physics all name d conf p d' miss :
  save physics all name d = Some (d', true, miss) -> load name = Some conf -> preset_of load conf p -> length (vdBodies d) = length (vdNodes d) ->
  exists e, vdExt d' = Some e /\ Forall (fun b => b = None) (vdBodies d') /\
    (cfAll conf = true \/ all = true -> Forall (fun m => vmeTyped m = true) (vdMeshes d) -> forall m i target, is_target (vdMeshes d) m i target -> exists g, In g (veMorphs e) /\ bgBinds g = [(m, i)]) /\
    (cfAll conf = false -> all = false -> exists gss, veMorphs e = old_morphs d ++ concat gss /\ Forall2 (groups_of (vdNodes d) (vdMeshes d)) (cfMorphs conf ++ preset_morphs p) gss) /\
    (forall l id, In (l, id) (veColliders e) <-> In (l, id) (old_colliders d) \/
       (exists t, In (l, t) (cfColliders conf ++ preset_colliders p) /\ last_named (vdNodes d) t id) \/
       ((cfColl conf = true \/ physics = true) /\ exists i n shapes, nth_error (vdNodes d) i = Some n /\ nth_error (vdBodies d) i = Some (Some (true, shapes)) /\ l = flat_map shape_collider shapes /\ l <> [] /\ last_named (vdNodes d) (vnName n) id)) /\
    (cfSprings conf ++ preset_springs p = [] -> old_springs d = [] ->
       (cfSpring conf = false -> physics = false -> veSprings e = []) /\
       (cfSpring conf = true \/ physics = true -> NoDup (map vnName (vdNodes d)) -> Forall (fun v => plain (vnName v)) (vdNodes d) -> Forall (fun v => vnMesh v = None) (vdNodes d) ->
        (forall a b i, pparent (spring_nodes M d) a i -> pparent (spring_nodes M d) b i -> a = b) ->
        forall i, (exists a, pparent (spring_nodes M d) a i) -> In i (concat (veSprings e)) <-> spring_root (spring_nodes M d) i)).
Proof.
  intros H L P LB. destruct (save_pieces physics all name d conf p d' miss H L P) as (e & e0 & morphs & g & A1 & A2 & A3 & A4 & A5 & A6 & A7 & A8).
  assert (O1 : veMorphs e0 = old_morphs d) by (subst e0; unfold get_ext, old_morphs; destruct (vdExt d); reflexivity).
  assert (O2 : veColliders e0 = old_colliders d) by (subst e0; unfold get_ext, old_colliders; destruct (vdExt d); reflexivity).
  assert (O3 : veSprings e0 = old_springs d) by (subst e0; unfold get_ext, old_springs; destruct (vdExt d); reflexivity).
  exists e. split; [exact A1|]. split; [rewrite A3; clear; induction (vdBodies d); constructor; auto|]. split; [|split; [|split]].
  - intros Ha Ty m i target Ht. assert (E : (cfAll conf || all)%bool = true) by (destruct Ha as [-> | ->]; [reflexivity|apply orb_true_r]). rewrite E in A4.
    destruct (morphs_all _ _ _ _ Ty A4 m i target Ht) as (x & X1 & X2 & _). exists x. split; [|exact X2]. rewrite A5. apply in_or_app. right. exact X1.
  - intros E1 E2. rewrite E1, E2 in A4. cbn [orb] in A4. destruct (morphs_groups _ _ _ _ _ A4) as (gss & rest & R1 & R2 & R3 & _). rewrite (R3 eq_refl), app_nil_r in R1. exists gss. rewrite A5, O1, R1. split; [reflexivity|exact R2].
  - intros l id. rewrite A8, O2, in_app_iff, !colliders_app, !in_app_iff.
    assert (AP : forall gs, In (l, id) (apply_colliders (map vnName (vdNodes d)) gs) <-> exists t, In (l, t) gs /\ last_named (vdNodes d) t id).
    { intros gs. unfold apply_colliders. rewrite in_flat_map. split.
      - intros ((l' & t) & I1 & I2). cbn [fst snd] in I2. destruct (last_index _ _) as [id'|] eqn:El; [|destruct I2]. destruct I2 as [I2|[]]. injection I2 as -> ->. exists t. split; [exact I1|]. apply last_name_named. exact El.
      - intros (t & I1 & I2). exists (l, t). split; [exact I1|]. cbn [fst snd]. apply last_name_named in I2. rewrite I2. left. reflexivity. }
    rewrite !AP.
    assert (CV : (exists t, In (l, t) (if cfColl conf || physics then convert_colliders (collider_nodes M d) else []) /\ last_named (vdNodes d) t id) <->
       ((cfColl conf = true \/ physics = true) /\ exists i n shapes, nth_error (vdNodes d) i = Some n /\ nth_error (vdBodies d) i = Some (Some (true, shapes)) /\ l = flat_map shape_collider shapes /\ l <> [] /\ last_named (vdNodes d) (vnName n) id)).
    { assert (B : (cfColl conf || physics)%bool = true <-> cfColl conf = true \/ physics = true) by apply orb_true_iff. rewrite <- B. clear B. destruct (cfColl conf || physics)%bool; [|split; [intros (t & [] & _)|intros (C & _); discriminate]].
      transitivity (exists i n shapes, nth_error (vdNodes d) i = Some n /\ nth_error (vdBodies d) i = Some (Some (true, shapes)) /\ l = flat_map shape_collider shapes /\ l <> [] /\ last_named (vdNodes d) (vnName n) id); [|split; [intros X; split; [reflexivity|exact X]|intros (_ & X); exact X]].
      unfold convert_colliders, collider_nodes. split.
      - intros (t & I & Ln). apply in_flat_map in I as (x & I1 & I2). apply in_map_iff in I1 as ((v & b) & <- & I1). cbn [fst snd cnBody cnName] in I2. apply In_nth_error in I1 as (i & Hi). rewrite nth_combine in Hi.
        destruct (nth_error (vdNodes d) i) as [v'|] eqn:Ev; [|discriminate]. destruct (nth_error (vdBodies d) i) as [b'|] eqn:Eb; [|discriminate]. injection Hi as -> ->.
        destruct b as [[[] shapes]|]; try destruct I2. destruct (flat_map shape_collider shapes) as [|c cs] eqn:Ef; [destruct I2|]. destruct I2 as [I2|[]]. injection I2 as <- <-. exists i, v, shapes. rewrite Ef. repeat split; try assumption; try discriminate; apply Ln.
      - intros (i & v & shapes & Ev & Eb & -> & Ne & Ln). exists (vnName v). split; [|exact Ln]. apply in_flat_map. exists (mkCN (vnName v) (Some (true, shapes))). split.
        + apply in_map_iff. exists (v, Some (true, shapes)). split; [reflexivity|]. apply (nth_error_In _ i). rewrite nth_combine, Ev, Eb. reflexivity.
        + cbn [cnBody cnName]. destruct (flat_map shape_collider shapes) eqn:Ef; [congruence|left; reflexivity]. }
    rewrite CV. split.
    + intros [X|[[(t & X & Y)|X]|(t & X & Y)]]; [left; exact X|right; left; exists t; rewrite in_app_iff; auto|right; right; exact X|right; left; exists t; rewrite in_app_iff; auto].
    + intros [X|[(t & X & Y)|X]]; [left; exact X| |right; left; right; exact X]. apply in_app_iff in X as [X|X]; right; [left; left|right]; exists t; auto.
  - intros E1 E2. apply app_eq_nil in E1 as [E1 E3]. rewrite E1, E3, O3, E2, app_nil_r in A7. cbn [app] in A7. split.
    + intros F1 F2. rewrite F1, F2 in A6. cbn [orb] in A6. injection A6 as <-. unfold apply_springs in A7. cbn [spring_groups] in A7. injection A7 as <-. reflexivity.
    + intros Ha ND PL NM UP i Hp. assert (E : (cfSpring conf || physics)%bool = true) by (destruct Ha as [-> | ->]; [reflexivity|apply orb_true_r]). rewrite E in A6.
      destruct (detect_springs fuel (spring_nodes M d)) as [roots|] eqn:Er; [|unfold detect_group in A6; rewrite Er in A6; discriminate].
      assert (SN : same_nodes (spring_nodes M d) (vdNodes d)).
      { unfold same_nodes, spring_nodes. clear - LB. revert LB. generalize (vdBodies d) as bs. induction (vdNodes d) as [|v vs IH]; intros [|b bs] LB; try discriminate; cbn; constructor; [split; reflexivity|]. apply IH. cbn in LB. lia. }
      rewrite (detect_applied pmatch order fuel fuel (spring_nodes M d) (vdNodes d) roots g (veSprings e) SN ND PL UP Er A6); [apply (detect_exact fuel _ _ Er UP i Hp)| |exact A7].
      apply Forall_forall. intros r _. unfold has_mesh. destruct (nth_error (vdNodes d) r) as [v|] eqn:Ev; [|reflexivity]. apply nth_error_In in Ev. rewrite Forall_forall in NM. rewrite (NM v Ev). reflexivity.
Qed.
(** Where a configuration is read. *)
Lemma load_places name :
  (In "."%char (list_ascii_of_string name) \/ In "/"%char (list_ascii_of_string name) -> load name = match read name with Some t => parse t | None => None end) /\
  (~ In "."%char (list_ascii_of_string name) -> ~ In "/"%char (list_ascii_of_string name) -> forall t,
     let file := ("vrmconfig_presets/" ++ name ++ ".json")%string in
     (there (exec ++ "/" ++ file) = true -> read (exec ++ "/" ++ file)%string = Some t -> load name = parse t) /\
     (there (exec ++ "/" ++ file) = false -> embedded file = Some t -> load name = parse t)).
Proof.
  assert (HC : forall c s, has_char c s = true <-> In c (list_ascii_of_string s)).
  { intros c s. induction s as [|x s IH]; cbn [has_char list_ascii_of_string]; [split; [discriminate|intros []]|]. cbn [In]. rewrite <- IH, orb_true_iff. split; (intros [X|X]; [left|right; exact X]); apply Ascii.eqb_eq in X || (apply Ascii.eqb_eq); congruence. }
  split.
  - intros X. unfold load_config. assert ((has_char "." name || has_char "/" name)%bool = true) as -> by (apply orb_true_iff; destruct X; [left|right]; apply HC; assumption). reflexivity.
  - intros X Y t. unfold load_config. assert ((has_char "." name || has_char "/" name)%bool = false) as -> by (apply orb_false_iff; split; apply not_true_iff_false; rewrite HC; assumption).
    cbv zeta. change (exec ++ "/vrmconfig_presets/" ++ name ++ ".json")%string with (exec ++ ("/" ++ ("vrmconfig_presets/" ++ name ++ ".json")))%string.
    split; intros Ht Er; rewrite Ht, Er; reflexivity.
Qed.
End Save.
