(** Proofs about saved .vrm files: C115. *)
From Coq Require Import String Ascii List ZArith Bool Arith Lia.
From Verif.Model Require Import Num Vec MqoDoc Cli VrmConfig VrmSave.
From Verif.Spec Require Import VrmSpec VrmSaveSpec.
From Verif.Proofs Require Import VrmBones VrmSprings VrmRest.
Import ListNotations.
Local Open Scope string_scope.
Local Open Scope list_scope.

Lemma add_used_in n l x : In x (add_used n l) <-> In x l \/ x = n.
Proof.
  unfold add_used. destruct (existsb (String.eqb n) l) eqn:E.
  - apply existsb_exists in E. destruct E as (y & Y & E). apply String.eqb_eq in E. subst y. split; [tauto|]. intros [H| -> ]; assumption.
  - rewrite in_app_iff. cbn. intuition.
Qed.
Lemma add_used_nodup n l : NoDup l -> NoDup (add_used n l).
Proof.
  intro H. unfold add_used. destruct (existsb (String.eqb n) l) eqn:E; [exact H|]. apply nodup_snoc; [exact H|]. intro I.
  assert (X : existsb (String.eqb n) l = true) by (apply existsb_exists; exists n; split; [exact I|apply String.eqb_refl]). congruence.
Qed.

Section Save.
Context {T : Type} {N : Num T}.
Variable M : Type.
Variable meta0 : M.
Variables (read embedded : string -> option string) (there : string -> bool) (exec : string) (parse : string -> option (config T M)).
Variables (pmatch : string -> string -> bool) (order : list nat -> list nat) (fuel : nat).
Notation load := (load_config M read embedded there exec parse).
Notation save := (save_vrm M meta0 read embedded there exec parse pmatch order fuel).

Lemma settings_names l ms : forall ms', apply_settings l ms = Some ms' -> Forall2 (fun m m' => apply_setting l m = Some m' /\ vmName m' = vmName m) ms ms'.
Proof.
  induction ms as [|m r IH]; intros ms' H; cbn [apply_settings] in H; [injection H as <-; constructor|].
  destruct (apply_setting l m) as [m'|] eqn:E; [|discriminate]. destruct (apply_settings l r) as [r'|] eqn:E2; [|discriminate]. injection H as <-.
  constructor; [|now apply IH]. split; [exact E|]. unfold apply_setting in E. destruct (match setting_at l (vmName m) with Some s => Some s | None => setting_at l "*" end) as [s|]; [|now injection E as <-].
  destruct (nltb nzero (msAlpha s)); [|now injection E as <-]. destruct (vmPbr m) as [[c|]|]; [|discriminate|]; now injection E as <-.
Qed.
Lemma groups_begin nodes groups : forall reg out out', spring_groups pmatch order fuel nodes groups reg out = Some out' -> begins out out'.
Proof.
  induction groups as [|[b0 names] r IH]; intros reg out out' H; cbn [spring_groups] in H.
  - injection H as <-. exists []. now rewrite app_nil_r.
  - destruct (spring_names pmatch order fuel nodes names reg b0) as [[reg1 bones]|]; [|discriminate]. destruct (IH _ _ _ H) as [c C].
    destruct bones; [now exists c|]. rewrite <- app_assoc in C. eexists. exact C.
Qed.
Lemma merge_in (c p m : list (string * msetting T)) : NoDup (map fst c) -> NoDup (map fst p) -> merge_settings (Some c) p = Some (Some m) ->
  NoDup (map fst m) /\ forall k s, In (k, s) m <-> In (k, s) c \/ (forall s', ~ In (k, s') c) /\ In (k, s) p.
Proof.
  intros C P H. destruct (merge_exact c p P C) as (r & R & D & E). rewrite H in R. injection R as <-. split; [exact D|]. exact E.
Qed.
Lemma unlit_ask (own preset m : list (string * msetting T)) name : NoDup (map fst m) ->
  (forall k s, In (k, s) m <-> In (k, s) own \/ (forall s', ~ In (k, s') own) /\ In (k, s) preset) ->
  (exists s, in_force m name s /\ msUnlit s = true) <-> asks_unlit own preset name.
Proof.
  intros D E. unfold in_force, asks_unlit. split.
  - intros (s & [H|[H1 H2]] & U); exists s; (split; [exact U|]).
    + apply E in H. destruct H as [H|[H3 H4]]; [now left|]. right. split; [exact H3|now left].
    + right. split; [intros s' I; apply (H1 s'), E; now left|]. right. split.
      * intros s' I. apply (H1 s'), E. right. split; [|exact I]. intros s'' I2. apply (H1 s''), E. now left.
      * apply E in H2. exact H2.
  - intros (s & U & H). exists s. split; [|exact U]. destruct H as [H|[H1 [H|[H2 H]]]].
    + left. apply E. now left.
    + left. apply E. now right.
    + right. split; [|now apply E]. intros s' I. apply E in I. destruct I as [I|[_ I]]; [now apply (H1 s')|now apply (H2 s')].
Qed.
Lemma unlit_by_force (l : list (string * msetting T)) (m : vmat T) : NoDup (map fst l) -> unlit_by l m = true <-> exists s, in_force l (vmName m) s /\ msUnlit s = true.
Proof.
  intro D. unfold unlit_by. split.
  - destruct (match setting_at l (vmName m) with Some s => Some s | None => setting_at l "*" end) as [s|] eqn:E; [|discriminate].
    intro U. exists s. split; [|exact U]. apply (the_setting_some l (vmName m) s D). exact E.
  - intros (s & F & U). apply (the_setting_some l (vmName m) s D) in F. unfold the_setting in F. now rewrite F.
Qed.

(** What is written if everything can be loaded. *)
Theorem save_written physics all name d conf p d' miss :
  save physics all name d = Some (d', true, miss) -> load name = Some conf -> preset_of load conf p ->
  NoDup (map fst (own_mats conf)) -> NoDup (map fst (preset_mats p)) ->
  exists e, vdExt d' = Some e /\ veMeta e = cfMeta conf /\ veExporter e = true /\
    vdNodes d' = vdNodes d /\ vdMeshes d' = vdMeshes d /\ map vmName (vdMats d') = map vmName (vdMats d) /\
    length (veMats e) = length (vdMats d') /\ (vdExt d = None -> veMats e = map vmName (vdMats d')) /\
    (NoDup (map hbName (veBones e)) /\ forall b id dflt, In (mkHB b id dflt) (veBones e) <-> bone_is (vdNodes d) (cfBones conf ++ preset_bones p) b id dflt) /\
    (forall b, In b miss <-> In b required_bones /\ ~ In b (map hbName (veBones e))) /\
    (NoDup (vdUsed d) -> NoDup (vdUsed d')) /\
    ((vdExt d = None \/ In "VRM" (vdUsed d)) -> In "VRM" (vdUsed d')) /\
    (forall x, In x (vdUsed d') <-> In x (vdUsed d) \/ (x = "VRM" /\ vdExt d = None) \/ (x = "KHR_materials_unlit" /\ exists m, In m (vdMats d) /\ asks_unlit (own_mats conf) (preset_mats p) (vmName m))).
Proof.
  intros H L P D1 D2. unfold save_vrm in H. rewrite L in H.
  destruct (apply_vrm_config _ _ _ _ _ _ _ _ _ _ _ _) as [[d1 ok]|] eqn:E; [|discriminate]. injection H as -> -> <-.
  unfold apply_vrm_config in E. destruct (if cfSpring _ then _ else _) as [g|]; [|discriminate]. unfold apply_config in E.
  cbn [cfPreset cfMeta cfBones cfMorphs cfMats cfAll cfColl cfSpring cfSprings cfColliders vdNodes vdMeshes vdMats vdExt vdUsed get_ext] in E.
  set (ge := get_ext M meta0 _) in E. assert (G : ge = get_ext M meta0 d) by reflexivity. clearbody ge. destruct ge as [e0 used0].
  set (mats0 := if Nat.eqb _ _ then _ else _) in E.
  match type of E with match ?X with _ => _ end = _ => destruct X as [[c|]|] eqn:X1; [|discriminate|discriminate] end.
  assert (K : cfMeta c = cfMeta conf /\ cfBones c = cfBones conf ++ preset_bones p /\
              NoDup (map fst (match cfMats c with Some l => l | None => [] end)) /\
              forall k s, In (k, s) (match cfMats c with Some l => l | None => [] end) <-> In (k, s) (own_mats conf) \/ (forall s', ~ In (k, s') (own_mats conf)) /\ In (k, s) (preset_mats p)).
  { destruct p as [q|]; cbn [preset_of preset_bones preset_mats] in *.
    - destruct P as [P1 P2]. apply String.eqb_neq in P1. rewrite P1, P2 in X1. unfold merge_preset in X1. cbn [cfMeta cfBones cfMats] in X1.
      destruct (merge_settings (cfMats conf) (match cfMats q with Some l => l | None => [] end)) as [mm|] eqn:MM; [|discriminate]. injection X1 as <-. cbn [cfMeta cfBones cfMats].
      split; [reflexivity|]. split; [reflexivity|]. unfold own_mats in *. destruct (cfMats conf) as [l|].
      + assert (Q : exists m0, mm = Some m0) by (cbn [merge_settings] in MM; injection MM as <-; eauto). destruct Q as [m0 ->]. exact (merge_in l _ m0 D1 D2 MM).
      + cbn [merge_settings] in MM. destruct (match cfMats q with Some l => l | None => [] end); [|discriminate]. injection MM as <-. split; [constructor|]. cbn. tauto.
    - rewrite P in X1. cbn [String.eqb] in X1. injection X1 as <-. cbn [cfMeta cfBones cfMats]. rewrite app_nil_r. split; [reflexivity|]. split; [reflexivity|]. split; [exact D1|].
      intros k s. unfold own_mats. cbn. tauto. }
  destruct K as (K1 & K2 & K3 & K4). set (settings := match cfMats c with Some l => l | None => [] end) in *. clearbody settings.
  destruct (humanoid (vdNodes d) (cfBones c)) as [bones head] eqn:Hu.
  destruct (apply_settings settings (vdMats d)) as [mats|] eqn:E1; [|discriminate].
  destruct (apply_springs pmatch order fuel (vdNodes d) (cfSprings c) (veSprings e0)) as [springs|]; [|discriminate].
  destruct (apply_morphs (cfAll c) (vdNodes d) (vdMeshes d) (cfMorphs c)) as [morphs|]; [|discriminate].
  injection E as <-. eexists. cbn [vdExt veMeta veExporter vdNodes vdMeshes vdMats veMats veBones vdUsed get_ext fst]. split; [reflexivity|]. cbn [veMeta veExporter veMats veBones].
  apply settings_names in E1.
  assert (NM : map vmName mats = map vmName (vdMats d)). { clear -E1. induction E1 as [|m m' l l' [_ A] _ IH]; [reflexivity|]. cbn [map]. now rewrite A, IH. }
  assert (LM : length mats = length (vdMats d)) by (rewrite <- (map_length vmName mats), NM; apply map_length).
  assert (U : existsb (unlit_by settings) (vdMats d) = true <-> exists m, In m (vdMats d) /\ asks_unlit (own_mats conf) (preset_mats p) (vmName m)).
  { rewrite existsb_exists. split; intros (m & I & A); exists m; (split; [exact I|]).
    - apply (unlit_by_force settings m K3) in A. now apply (unlit_ask (own_mats conf) (preset_mats p) settings (vmName m) K3 K4).
    - apply (unlit_by_force settings m K3). now apply (unlit_ask (own_mats conf) (preset_mats p) settings (vmName m) K3 K4). }
  assert (G2 : used0 = match vdExt d with Some _ => vdUsed d | None => add_used "VRM" (vdUsed d) end /\ (vdExt d = None -> veMats e0 = [])).
  { unfold get_ext in G. destruct (vdExt d); injection G as -> ->; (split; [reflexivity|]); [discriminate|reflexivity]. }
  destruct G2 as [-> GM].
  assert (UI : forall x, In x (if existsb (unlit_by settings) (vdMats d) then add_used "KHR_materials_unlit" (match vdExt d with Some _ => vdUsed d | None => add_used "VRM" (vdUsed d) end) else (match vdExt d with Some _ => vdUsed d | None => add_used "VRM" (vdUsed d) end)) <->
     In x (vdUsed d) \/ (x = "VRM" /\ vdExt d = None) \/ (x = "KHR_materials_unlit" /\ exists m, In m (vdMats d) /\ asks_unlit (own_mats conf) (preset_mats p) (vmName m))).
  { intro x. rewrite <- U. destruct (existsb (unlit_by settings) (vdMats d)); rewrite ?add_used_in; (destruct (vdExt d); [|rewrite ?add_used_in]); intuition (try discriminate). }
  split; [exact K1|]. split; [reflexivity|]. split; [reflexivity|]. split; [reflexivity|]. split; [exact NM|].
  split. { subst mats0. rewrite LM. destruct (Nat.eqb (length (veMats e0)) (length (vdMats d))) eqn:Q; [now apply Nat.eqb_eq|apply map_length]. }
  split. { intro X. subst mats0. rewrite (GM X). rewrite NM. cbn [length]. destruct (vdMats d); reflexivity. }
  split. { assert (B : bones = fst (humanoid (vdNodes d) (cfBones conf ++ preset_bones p))) by (rewrite <- K2, Hu; reflexivity). rewrite B. split; [apply humanoid_once|]. intros b id dflt. apply humanoid_exact. }
  split. { intro b. apply check_exact. }
  split. { intro ND. destruct (existsb (unlit_by settings) (vdMats d)); [apply add_used_nodup|]; (destruct (vdExt d); [exact ND|now apply add_used_nodup]). }
  split. { intros [X|X]; apply UI; tauto. }
  exact UI.
Qed.

(** What was there before. *)
Theorem save_kept physics all name d e d' ok miss : save physics all name d = Some (d', ok, miss) -> vdExt d = Some e ->
  exists e', vdExt d' = Some e' /\ begins (veMorphs e) (veMorphs e') /\ begins (veSprings e) (veSprings e') /\ begins (veColliders e) (veColliders e') /\
    (veFirst e <> None -> veFirst e' = veFirst e) /\ (length (veMats e) = length (vdMats d) -> veMats e' = veMats e).
Proof.
  intros H X. unfold save_vrm in H. set (conf := match load name with Some c => c | None => _ end) in H. clearbody conf.
  destruct (apply_vrm_config _ _ _ _ _ _ _ _ _ _ _ _) as [[d1 ok1]|] eqn:E; [|discriminate]. injection H as -> -> <-.
  unfold apply_vrm_config in E. destruct (if cfSpring _ then _ else _) as [g|]; [|discriminate]. unfold apply_config in E. unfold get_ext in E. cbn [vdExt vdUsed] in E. rewrite X in E.
  cbn [vdNodes vdMats vdMeshes vdBodies] in E.
  match type of E with match ?Y with _ => _ end = _ => destruct Y as [[c|]|] eqn:X1; [| |discriminate] end.
  - destruct (humanoid (vdNodes d) (cfBones c)) as [bones head]. destruct (apply_settings _ (vdMats d)) as [mats|]; [|discriminate].
    destruct (apply_springs pmatch order fuel (vdNodes d) (cfSprings c) (veSprings e)) as [springs|] eqn:Sp; [|discriminate].
    destruct (apply_morphs (cfAll c) (vdNodes d) (vdMeshes d) (cfMorphs c)) as [morphs|]; [|discriminate]. injection E as <- <-. eexists. split; [reflexivity|]. cbn [veMorphs veSprings veColliders veFirst veMats].
    split; [eexists; reflexivity|]. split; [exact (groups_begin _ _ _ _ _ Sp)|]. split; [eexists; reflexivity|]. split; [destruct (veFirst e); [reflexivity|congruence]|].
    intro L. now rewrite L, Nat.eqb_refl.
  - injection E as <- <-. eexists. split; [reflexivity|]. cbn [veMorphs veSprings veColliders veFirst veMats]. split; [exists []; now rewrite app_nil_r|]. split; [exists []; now rewrite app_nil_r|]. split; [exists []; now rewrite app_nil_r|].
    split; [reflexivity|]. intro L. now rewrite L, Nat.eqb_refl.
Qed.
End Save.

(** ** No crash. *)
Lemma spring_len_total nodes rank : (forall i n c, nth_error nodes i = Some n -> In c (pnChildren n) -> (rank c < rank i)%nat /\ (c < length nodes)%nat) ->
  forall fuel i, (rank i < fuel)%nat -> (i < length nodes)%nat -> exists l, spring_len fuel nodes i = Some l.
Proof.
  intro R. induction fuel as [|f IH]; intros i F I; [lia|]. cbn [spring_len]. destruct (nth_error nodes i) as [n|] eqn:E; [|apply nth_error_None in E; lia].
  destruct (pnBody n) as [[|]|]; [eauto| |eauto].
  set (go := fix go (cs : list nat) (l : Z) : option Z := _).
  assert (G : forall cs l, (forall c, In c cs -> In c (pnChildren n)) -> exists r, go cs l = Some r).
  { induction cs as [|c cs IHc]; intros l Sub; cbn; [eauto|]. destruct (R i n c E (Sub c (or_introl eq_refl))) as [R1 R2].
    destruct (IH c ltac:(lia) R2) as [x ->]. destruct (x <? 0)%Z; [eauto|]. apply IHc. intros y Y. apply Sub. now right. }
  apply G. auto.
Qed.
Lemma detect_total nodes rank fuel : (forall i n c, nth_error nodes i = Some n -> In c (pnChildren n) -> (rank c < rank i)%nat /\ (c < length nodes)%nat) ->
  (forall i, (i < length nodes)%nat -> (rank i < fuel)%nat) -> exists g, detect_group fuel nodes = Some g.
Proof.
  intros R F. assert (D : forall l, (forall i, In i l -> (i < length nodes)%nat) -> exists o, detect fuel nodes l = Some o).
  { induction l as [|i l IH]; intro B; cbn [detect]; [eauto|]. assert (B0 := B i (or_introl eq_refl)).
    destruct (spring_len_total nodes rank R fuel i (F i B0) B0) as [x ->]. destruct IH as [o ->]; [intros j J; apply B; now right|].
    destruct (0 <? x)%Z; [|eauto].
    assert (PB : (parent_or_0 nodes i < length nodes)%nat).
    { unfold parent_or_0. destruct (last_index (fun n => existsb (Nat.eqb i) (pnChildren n)) nodes) as [q|] eqn:Q; [|lia].
      destruct (parent_spec nodes i q) as (m & Hm & _).
      - unfold parent_or_0. now rewrite Q.
      - assert (W : exists k m, nth_error nodes k = Some m /\ existsb (Nat.eqb i) (pnChildren m) = true).
        { clear -Q. revert q Q. induction nodes as [|a ns IHn]; intros q Q; cbn in Q; [discriminate|].
          destruct (last_index (fun n => existsb (Nat.eqb i) (pnChildren n)) ns) as [k|] eqn:K.
          - destruct (IHn k eq_refl) as (k' & m & A & B). exists (S k'), m. now split.
          - destruct (existsb (Nat.eqb i) (pnChildren a)) eqn:X; [|discriminate]. exists 0%nat, a. now split. }
        destruct W as (k & m & A & BX). exists k. exists m. split; [exact A|]. apply existsb_exists in BX. destruct BX as (y & Y & Z). apply Nat.eqb_eq in Z. now subst y.
      - apply nth_error_Some. congruence. }
    destruct (spring_len_total nodes rank R fuel (parent_or_0 nodes i) (F _ PB) PB) as [y ->]. eauto. }
  unfold detect_group, detect_springs. destruct (D (seq 0 (length nodes))) as [o ->].
  - intros i I. apply in_seq in I. lia.
  - destruct o; eauto.
Qed.

Section Total.
Context {T : Type} {N : Num T}.
Variable M : Type.
Variable meta0 : M.
Variables (read embedded : string -> option string) (there : string -> bool) (exec : string) (parse : string -> option (config T M)).
Variables (pmatch : string -> string -> bool) (order : list nat -> list nat).
Notation load := (load_config M read embedded there exec parse).

Lemma settings_total (l : list (string * msetting T)) (ms : list (vmat T)) : (forall m, In m ms -> vmPbr m <> Some None) -> exists r, apply_settings l ms = Some r.
Proof.
  induction ms as [|m ms IH]; intro H; cbn [apply_settings]; [eauto|]. destruct IH as [r ->]; [intros x X; apply H; now right|].
  assert (P := H m (or_introl eq_refl)). unfold apply_setting. destruct (match setting_at l (vmName m) with Some s => Some s | None => setting_at l "*" end) as [s|]; [|eauto].
  destruct (nltb nzero (msAlpha s)); [|eauto]. destruct (vmPbr m) as [[c|]|]; [eauto|congruence|eauto].
Qed.
Theorem save_total d physics all name : (forall l, incl (order l) l) -> finite_nodes (vdNodes d) -> length (vdBodies d) = length (vdNodes d) ->
  (forall m, In m (vdMats d) -> vmPbr m <> Some None) ->
  (forall conf p, load name = Some conf -> preset_of load conf p -> cfMats conf <> None \/ preset_mats p = []) ->
  (forall conf p mp, load name = Some conf -> preset_of load conf p -> In mp (cfMorphs conf ++ preset_morphs p) ->
    mmTarget mp <> "" \/ forall id, ~ bone_node (vdNodes d) (mmNode mp) id) ->
  exists f, forall fuel, (f <= fuel)%nat -> save_vrm M meta0 read embedded there exec parse pmatch order fuel physics all name d <> None.
Proof.
  intros HO FN LB MP CM MM. destruct (springs_total pmatch order (vdNodes d) HO FN) as [f1 F1]. destruct FN as [rank R]. destruct (rank_bound rank (length (vdNodes d))) as [f2 F2].
  exists (f1 + f2)%nat. intros fuel FL. unfold save_vrm. set (conf0' := match load name with Some c => c | None => _ end).
  assert (CM' : forall p, preset_of load conf0' p -> cfMats conf0' <> None \/ preset_mats p = []).
  { intros p P. subst conf0'. destruct (load name) as [cf|] eqn:L; [now apply (CM cf p)|]. right. destruct p as [q|]; [|reflexivity]. now destruct P as [P _]. }
  assert (MM' : forall p mp, preset_of load conf0' p -> In mp (cfMorphs conf0' ++ preset_morphs p) -> mmTarget mp <> "" \/ forall id, ~ bone_node (vdNodes d) (mmNode mp) id).
  { intros p mp P I. subst conf0'. destruct (load name) as [cf|] eqn:L; [now apply (MM cf p mp)|]. destruct p as [q|]; [now destruct P as [P _]|destruct I]. }
  clearbody conf0'. clear CM MM.
  assert (DT : exists g, detect_group fuel (spring_nodes M d) = Some g).
  { apply (detect_total _ rank).
    - unfold spring_nodes. intros i n c Hn Hc. rewrite nth_error_map in Hn. destruct (nth_error (combine (vdNodes d) (vdBodies d)) i) as [[v b]|] eqn:E; [|discriminate]. injection Hn as <-. cbn [pnChildren fst] in Hc.
      assert (V : nth_error (vdNodes d) i = Some v).
      { clear -E. revert i E. generalize (vdBodies d). induction (vdNodes d) as [|a l IH]; intros [|x xs] [|i] E; cbn in *; try discriminate; [now injection E as -> _|now apply (IH xs)]. }
      destruct (R i v c V Hc) as [A B]. split; [exact A|]. rewrite map_length, combine_length, LB, Nat.min_id. exact B.
    - intros i I. unfold spring_nodes in I. rewrite map_length, combine_length, LB, Nat.min_id in I. specialize (F2 i I). lia. }
  destruct DT as [g DT]. set (cc := mkConf _ _ _ _ _ _ _ _ _ _).
  enough (A : apply_vrm_config M meta0 read embedded there exec parse pmatch order fuel d cc <> None) by (destruct (apply_vrm_config _ _ _ _ _ _ _ _ _ _ _ _) as [[? ?]|]; [discriminate|congruence]).
  unfold apply_vrm_config. assert (G : exists g', (if cfSpring cc then detect_group fuel (spring_nodes M d) else Some []) = Some g') by (destruct (cfSpring cc); eauto). destruct G as [g' ->].
  set (c2 := mkConf _ _ _ _ _ _ _ _ _ _). unfold apply_config. destruct (get_ext _ _ _) as [e0 used0].
  assert (Y : exists c, (if String.eqb (cfPreset c2) "" then Some (Some c2) else match load (cfPreset c2) with None => Some None | Some p => match merge_preset M c2 p with None => None | Some c => Some (Some c) end end) = Some c /\
    (c = None \/ exists c', c = Some c' /\ exists p, preset_of load conf0' p /\ cfMorphs c' = cfMorphs conf0' ++ preset_morphs p)).
  { subst c2 cc. cbn [cfPreset]. destruct (String.eqb (cfPreset conf0') "") eqn:E.
    - apply String.eqb_eq in E. eexists. split; [reflexivity|]. right. eexists. split; [reflexivity|]. exists None. split; [exact E|]. cbn. now rewrite app_nil_r.
    - apply String.eqb_neq in E. destruct (load (cfPreset conf0')) as [q|] eqn:L; [|eauto]. assert (PO : preset_of load conf0' (Some q)) by (split; assumption).
      destruct (CM' _ PO) as [X|X]; unfold merge_preset; cbn [cfMats].
      + destruct (cfMats conf0') as [l|]; [|congruence]. cbn [merge_settings]. eexists. split; [reflexivity|]. right. eexists. split; [reflexivity|]. exists (Some q). split; [exact PO|reflexivity].
      + cbn [preset_mats] in X. rewrite X. destruct (cfMats conf0') as [l|]; cbn [merge_settings]; (eexists; split; [reflexivity|]; right; eexists; split; [reflexivity|]; exists (Some q); split; [exact PO|reflexivity]). }
  destruct Y as (c & -> & [ -> |(c' & -> & p & PO & MO)]); [discriminate|]. cbn [vdNodes vdMats vdMeshes vdBodies].
  destruct (humanoid (vdNodes d) (cfBones c')) as [bones head]. destruct (settings_total (match cfMats c' with Some l => l | None => [] end) (vdMats d) MP) as [ms ->].
  destruct (F1 fuel (cfSprings c') (veSprings e0) ltac:(lia)) as [out ->].
  destruct (apply_morphs (cfAll c') (vdNodes d) (vdMeshes d) (cfMorphs c')) eqn:AM; [discriminate|]. exfalso.
  apply morphs_crash in AM. destruct AM as (mp & id & I & Tm & B). rewrite MO in I. destruct (MM' p mp PO I) as [W|W]; [congruence|]. exact (W id B).
Qed.
End Total.

Local Open Scope string_scope.
Lemma substring_app a b : substring 0 (String.length a) (a ++ b) = a.
Proof. induction a; cbn; [now destruct b|now rewrite IHa]. Qed.
Lemma append_len a b : String.length (a ++ b) = (String.length a + String.length b)%nat.
Proof. induction a; cbn; [reflexivity|now rewrite IHa]. Qed.
Theorem choice there stem e : ext (stem ++ e) = e ->
  (forall flag, flag <> "" -> choose_config there flag (stem ++ e) = flag) /\
  (there (stem ++ ".vrmconfig.json") = true -> choose_config there "" (stem ++ e) = stem ++ ".vrmconfig.json") /\
  (there (stem ++ ".vrmconfig.json") = false -> choose_config there "" (stem ++ e) = if is_mmd (lower e) then "mmd" else "").
Proof.
  intro E. unfold choose_config. split; [|split].
  - intros flag F. apply String.eqb_neq in F. now rewrite F.
  - cbn [String.eqb negb]. rewrite E, append_len, Nat.add_sub, substring_app. now intros ->.
  - cbn [String.eqb negb]. rewrite E, append_len, Nat.add_sub, substring_app. now intros ->.
Qed.
