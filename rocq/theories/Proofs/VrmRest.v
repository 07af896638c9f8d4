(** Material settings and morphs of a VRM configuration. *)
From Coq Require Import String List ZArith Bool Lia.
From Verif.Model Require Import Num Vec MqoDoc VrmConfig.
From Verif.Spec Require Import VrmSpec.
From Verif.Proofs Require Import Mqo2MmdProofs Mmd2MqoFaces GltfUtilAcc VrmBones.
Import ListNotations.
Local Open Scope list_scope.

Lemma nodup_snoc {A} (l : list A) x : NoDup l -> ~ In x l -> NoDup (l ++ [x]).
Proof.
  intros ND NI. induction l as [|y l IH]; cbn [app]; [constructor; [intros []|constructor]|]. inversion ND as [|? ? N1 N2]; subst. constructor.
  - intros H. apply in_app_or in H as [H|[<-|[]]]; [contradiction|]. apply NI. left. reflexivity.
  - apply IH; [exact N2|]. intros H. apply NI. right. exact H.
Qed.
Section Materials.
Context {T : Type} {N : Num T}.

Lemma setting_some (l : list (string * msetting T)) k s : NoDup (map fst l) -> setting_at l k = Some s <-> In (k, s) l.
Proof.
  induction l as [|[n x] r IH]; intros ND; cbn [setting_at]; [split; [discriminate|intros []]|]. cbn in ND. inversion ND as [|? ? N1 N2]; subst.
  destruct (String.eqb_spec n k) as [->|Ne].
  - split; [intros H; injection H as ->; left; reflexivity|]. intros [H|H]; [congruence|]. exfalso. apply N1. apply (in_map fst) in H. exact H.
  - rewrite (IH N2). split; [intros H; right; exact H|]. intros [H|H]; [congruence|exact H].
Qed.
Lemma setting_none (l : list (string * msetting T)) k : setting_at l k = None <-> forall s, ~ In (k, s) l.
Proof.
  induction l as [|[n x] r IH]; cbn [setting_at]; [split; [intros _ s []|reflexivity]|]. destruct (String.eqb_spec n k) as [->|Ne].
  - split; [discriminate|]. intros H. contradiction (H x). left. reflexivity.
  - rewrite IH. split; intros H s Hs; [destruct Hs as [Hs|Hs]; [congruence|apply (H s Hs)]|apply (H s); right; exact Hs].
Qed.
Definition the_setting (l : list (string * msetting T)) name := match setting_at l name with Some s => Some s | None => setting_at l "*" end.
Lemma the_setting_some l name s : NoDup (map fst l) -> the_setting l name = Some s <-> in_force l name s.
Proof.
  intros ND. unfold the_setting, in_force. destruct (setting_at l name) as [x|] eqn:E.
  - apply (setting_some _ _ _ ND) in E. split; [intros H; injection H as <-; auto|]. intros [H|(H & _)]; [|contradiction (H x E)]. apply (setting_some _ _ _ ND) in H, E. congruence.
  - rewrite (setting_some _ _ _ ND). pose proof (proj1 (setting_none _ _) E) as E'. clear E. rename E' into E. split; [auto|]. intros [H|(_ & H)]; [contradiction (E s H)|exact H].
Qed.

Theorem setting_exact l m m' s : NoDup (map fst l) -> in_force l (vmName m) s -> apply_setting l m = Some m' ->
  vmName m' = vmName m /\
  vmExt m' = (if msUnlit s then ["KHR_materials_unlit"%string] else vmExt m) /\
  ((msAlphaMode s = "opaque" -> vmAlpha m' = 0) /\ (msAlphaMode s = "mask" -> vmAlpha m' = 1) /\ (msAlphaMode s = "blend" -> vmAlpha m' = 2) /\
   (~ In (msAlphaMode s) ["opaque"; "mask"; "blend"] -> vmAlpha m' = vmAlpha m))%string%Z /\
  (nltb nzero (msAlpha s) = false -> vmPbr m' = vmPbr m) /\
  (forall c, nltb nzero (msAlpha s) = true -> vmPbr m = Some (Some c) -> vmPbr m' = Some (Some (mkV4 (qx c) (qy c) (qz c) (msAlpha s)))) /\
  (vmPbr m = None -> vmPbr m' = None).
Proof.
  intros ND F H. apply (the_setting_some _ _ _ ND) in F. unfold apply_setting in H. fold (the_setting l (vmName m)) in H. rewrite F in H. clear F.
  assert (A : forall a : Z, a = (if String.eqb (msAlphaMode s) "blend" then 2 else if String.eqb (msAlphaMode s) "mask" then 1 else if String.eqb (msAlphaMode s) "opaque" then 0 else vmAlpha m)%Z ->
    ((msAlphaMode s = "opaque" -> a = 0) /\ (msAlphaMode s = "mask" -> a = 1) /\ (msAlphaMode s = "blend" -> a = 2) /\ (~ In (msAlphaMode s) ["opaque"; "mask"; "blend"] -> a = vmAlpha m))%string%Z).
  { intros a ->. destruct (String.eqb_spec (msAlphaMode s) "blend") as [->|N1]; [cbn; repeat split; try discriminate; intuition|].
    destruct (String.eqb_spec (msAlphaMode s) "mask") as [->|N2]; [cbn; repeat split; try discriminate; intuition|].
    destruct (String.eqb_spec (msAlphaMode s) "opaque") as [->|N3]; [cbn; repeat split; try discriminate; intuition|].
    repeat split; try contradiction. }
  destruct (nltb nzero (msAlpha s)); [destruct (vmPbr m) as [[c|]|]; [|discriminate|]|]; injection H as <-; cbn [vmName vmExt vmAlpha vmPbr]; (split; [reflexivity|]; split; [reflexivity|]; split; [apply A; reflexivity|]);
    repeat split; try discriminate; try reflexivity; intros; try congruence.
Qed.
Theorem setting_other l m : NoDup (map fst l) -> (forall s, ~ in_force l (vmName m) s) -> apply_setting l m = Some m.
Proof.
  intros ND F. unfold apply_setting. fold (the_setting l (vmName m)). destruct (the_setting l (vmName m)) as [s|] eqn:E; [|reflexivity].
  apply (the_setting_some _ _ _ ND) in E. contradiction (F s E).
Qed.
Theorem setting_crash l m : NoDup (map fst l) -> apply_setting l m = None <-> vmPbr m = Some None /\ exists s, in_force l (vmName m) s /\ nltb nzero (msAlpha s) = true.
Proof.
  intros ND. unfold apply_setting. fold (the_setting l (vmName m)). destruct (the_setting l (vmName m)) as [s|] eqn:E.
  - split.
    + destruct (nltb nzero (msAlpha s)) eqn:A; [|discriminate]. destruct (vmPbr m) as [[c|]|]; try discriminate. intros _. split; [reflexivity|]. exists s. split; [apply (the_setting_some _ _ _ ND), E|exact A].
    + intros (P & s' & F & A). apply (the_setting_some _ _ _ ND) in F. assert (s' = s) by congruence. subst s'. rewrite A, P. reflexivity.
  - split; [discriminate|]. intros (_ & s & F & _). apply (the_setting_some _ _ _ ND) in F. congruence.
Qed.

Lemma merge_fold (p : list (string * msetting T)) : forall c, NoDup (map fst p) -> NoDup (map fst c) ->
  let r := fold_left (fun l e => match setting_at l (fst e) with Some _ => l | None => l ++ [e] end) p c in
  NoDup (map fst r) /\ forall k s, In (k, s) r <-> In (k, s) c \/ (forall s', ~ In (k, s') c) /\ In (k, s) p.
Proof.
  induction p as [|[n x] p IH]; intros c NP NC; cbn [fold_left]; [split; [exact NC|]; intros k s; split; [auto|intros [H|(_ & [])]; exact H]|].
  cbn in NP. inversion NP as [|? ? N1 N2]; subst. cbn [fst]. destruct (setting_at c n) as [y|] eqn:E.
  - destruct (IH c N2 NC) as (A & B). split; [exact A|]. apply (setting_some _ _ _ NC) in E. intros k s. rewrite B. split.
    + intros [H|(H1 & H2)]; [auto|]. right. split; [exact H1|right; exact H2].
    + intros [H|(H1 & [H2|H2])]; [auto| |auto]. injection H2 as -> ->. contradiction (H1 y E).
  - pose proof (proj1 (setting_none _ _) E) as E'. clear E. rename E' into E. assert (NC' : NoDup (map fst (c ++ [(n, x)]))).
    { rewrite map_app. cbn [map fst]. apply nodup_snoc; [exact NC|]. intros H. apply in_map_iff in H as ([k s] & Hk & Hs). cbn in Hk. subst k. apply (E s Hs). }
    destruct (IH (c ++ [(n, x)]) N2 NC') as (A & B). split; [exact A|]. intros k s. rewrite B, in_app_iff. cbn [In]. split.
    + intros [[H|[H|[]]]|(H1 & H2)]; [auto| |].
      * injection H as <- <-. right. split; [exact E|left; reflexivity].
      * right. split; [|right; exact H2]. intros s' Hs. apply (H1 s'). apply in_or_app. left. exact Hs.
    + intros [H|(H1 & [H2|H2])]; [auto|injection H2 as <- <-; auto|]. right. split; [|exact H2]. intros s' Hs. apply in_app_or in Hs as [Hs|[Hs|[]]]; [apply (H1 s' Hs)|]. injection Hs as -> ->. apply N1. apply (in_map fst) in H2. exact H2.
Qed.
Theorem merge_exact (c p : list (string * msetting T)) : NoDup (map fst p) -> NoDup (map fst c) ->
  exists r, merge_settings (Some c) p = Some (Some r) /\ NoDup (map fst r) /\
  forall k s, In (k, s) r <-> In (k, s) c \/ (forall s', ~ In (k, s') c) /\ In (k, s) p.
Proof. intros NP NC. eexists. split; [reflexivity|]. apply merge_fold; assumption. Qed.
End Materials.

(** *** Morphs *)
Lemma nth_combine_seq' {A} (l : list A) i x : In (i, x) (combine (seq 0 (length l)) l) <-> nth_error l i = Some x.
Proof.
  assert (G : forall (q : list A) s i x, In (i, x) (combine (seq s (length q)) q) <-> (s <= i)%nat /\ nth_error q (i - s) = Some x).
  { induction q as [|y r IH]; intros s j z; cbn [length seq combine]; [split; [intros []|intros (_ & H); destruct (j - s)%nat; discriminate]|]. cbn [In]. rewrite IH. split.
    - intros [H|(H1 & H2)]; [injection H as <- <-; rewrite Nat.sub_diag; auto|]. split; [lia|]. replace (j - s)%nat with (S (j - S s)) by lia. exact H2.
    - intros (H1 & H2). destruct (Nat.eq_dec j s) as [->|Ne]; [left; rewrite Nat.sub_diag in H2; cbn in H2; congruence|]. right. split; [lia|]. replace (j - s)%nat with (S (j - S s)) in H2 by lia. exact H2. }
  rewrite G, Nat.sub_0_r. split; [tauto|]. intros H. split; [lia|exact H].
Qed.
Lemma all_targets_in meshes name m i : In (name, (m, i)) (all_targets meshes) <-> is_target meshes m i name /\ forall mesh, nth_error meshes m = Some mesh -> vmeTyped mesh = true.
Proof.
  unfold all_targets. rewrite in_flat_map. split.
  - intros ([k mesh] & Hk & Hin). apply nth_combine_seq' in Hk. apply in_map_iff in Hin as ([j n] & E & Hj). cbn [fst snd] in *. apply nth_combine_seq' in Hj. injection E as -> -> <-.
    unfold mesh_names in Hj. destruct (vmeTyped mesh) eqn:Ty; [|destruct j; discriminate]. split; [|intros mesh' H; congruence]. exists mesh. split; [exact Hk|]. split; [lia|]. rewrite Nat2Z.id. exact Hj.
  - intros ((mesh & Hm & Hi & Hn) & Ty). exists (m, mesh). split; [apply nth_combine_seq', Hm|]. apply in_map_iff. exists (Z.to_nat i, name). cbn [fst snd]. split; [rewrite Z2Nat.id by lia; reflexivity|].
    apply nth_combine_seq'. unfold mesh_names. rewrite (Ty mesh Hm). exact Hn.
Qed.
Lemma bind_eqb_true a b : bind_eqb a b = true <-> a = b.
Proof. destruct a as [a1 a2], b as [b1 b2]. unfold bind_eqb. cbn [fst snd]. rewrite andb_true_iff, Nat.eqb_eq, Z.eqb_eq. split; [intros (-> & ->); reflexivity|intros H; injection H as -> ->; auto]. Qed.
Lemma target_at_in meshes name t : target_at meshes name = Some t -> In (name, t) (all_targets meshes).
Proof.
  unfold target_at. destruct (last_index _ _) as [i|] eqn:E; [|discriminate]. destruct (last_index_Some _ _ _ E) as (a & [x y] & b & -> & <- & Hq & _). apply String.eqb_eq in Hq. cbn [fst] in Hq. subst x.
  rewrite nth_error_app2, Nat.sub_diag by lia. cbn. intros H. injection H as <-. apply in_or_app. right. left. reflexivity.
Qed.
Lemma target_at_some meshes name t : In (name, t) (all_targets meshes) -> exists t', target_at meshes name = Some t'.
Proof.
  intros H. unfold target_at. destruct (last_index _ _) as [i|] eqn:E.
  - destruct (last_index_Some _ _ _ E) as (a & x & b & -> & <- & _ & _). rewrite nth_error_app2, Nat.sub_diag by lia. cbn. eauto.
  - apply last_index_None in E. rewrite Forall_forall in E. specialize (E _ H). cbn in E. rewrite String.eqb_refl in E. discriminate.
Qed.

(** Every entry of [blendShapeMap] is driven by a group. *)
Lemma map_morph_used nodes meshes m gs us : map_morph nodes meshes m = Some (gs, us) -> forall t, In t us -> exists g, In g gs /\ bgName g = mmName m /\ bgBinds g = [t].
Proof.
  unfold map_morph. destruct (negb _).
  - destruct (target_at meshes (mmTarget m)) as [t|]; intros H; injection H as <- <-; intros t' Ht; [|destruct Ht]. destruct Ht as [<-|[]]. eexists. split; [left; reflexivity|auto].
  - destruct (node_id nodes (mmNode m)) as [id|]; [|intros H; injection H as <- <-; intros t []]. destruct (nth_error nodes id) as [n|]; [|discriminate]. destruct (vnMesh n) as [k|]; [|discriminate].
    intros H. injection H as <- <-. intros t [<-|[]]. eexists. split; [left; reflexivity|auto].
Qed.
Lemma map_morphs_used nodes meshes maps : forall gs us, map_morphs nodes meshes maps = Some (gs, us) -> forall t, In t us -> exists g, In g gs /\ In (bgName g) (map mmName maps) /\ bgBinds g = [t].
Proof.
  induction maps as [|m r IH]; intros gs us H t Ht; cbn [map_morphs] in H; [injection H as <- <-; destruct Ht|].
  destruct (map_morph nodes meshes m) as [[g u]|] eqn:E1; [|discriminate]. destruct (map_morphs nodes meshes r) as [[gs1 us1]|]; [|discriminate]. injection H as <- <-. apply in_app_or in Ht as [Ht|Ht].
  - destruct (map_morph_used _ _ _ _ _ E1 t Ht) as (g0 & Hg & Hn & Hb). exists g0. split; [apply in_or_app; auto|]. split; [left; symmetry; exact Hn|exact Hb].
  - destruct (IH _ _ eq_refl t Ht) as (g0 & Hg & Hn & Hb). exists g0. split; [apply in_or_app; auto|]. split; [right; exact Hn|exact Hb].
Qed.
Theorem morphs_all nodes meshes maps out : Forall (fun m => vmeTyped m = true) meshes -> apply_morphs true nodes meshes maps = Some out ->
  forall m i name, is_target meshes m i name -> exists g, In g out /\ bgBinds g = [(m, i)] /\ (bgName g = name \/ In (bgName g) (map mmName maps)).
Proof.
  intros F H m i name HT. unfold apply_morphs in H. destruct (map_morphs nodes meshes maps) as [[gs us]|] eqn:E; [|discriminate]. injection H as <-.
  assert (HA : In (name, (m, i)) (all_targets meshes)) by (apply all_targets_in; split; [exact HT|]; intros mesh Hm; rewrite Forall_forall in F; apply F; eapply nth_error_In; exact Hm).
  destruct (existsb (bind_eqb (m, i)) us) eqn:Eu.
  - apply existsb_exists in Eu as (t & Ht & Et). apply bind_eqb_true in Et as <-. destruct (map_morphs_used _ _ _ _ _ E _ Ht) as (g & Hg & Hn & Hb). exists g. split; [apply in_or_app; auto|]. split; [exact Hb|auto].
  - exists (mkBG name "" [(m, i)] 0%nat). split; [|split; [reflexivity|left; reflexivity]]. apply in_or_app. right. unfold rest_morphs. apply in_flat_map. exists (name, (m, i)). split; [exact HA|]. cbn [fst snd]. rewrite Eu. left. reflexivity.
Qed.

(** Every group comes from a mapping or is a target of that name. *)
Lemma map_morph_ok nodes meshes m gs us : map_morph nodes meshes m = Some (gs, us) -> forall g, In g gs -> bgName g = mmName m /\ bgPreset g = mmName m /\ (bgBinds g = us \/ bgBinds g = []).
Proof.
  unfold map_morph. destruct (negb _).
  - destruct (target_at meshes (mmTarget m)) as [t|]; intros H; injection H as <- <-; intros g Hg; [destruct Hg as [<-|[]]; auto|]. destruct (mmValues m); [destruct Hg|]. destruct Hg as [<-|[]]. auto.
  - destruct (node_id nodes (mmNode m)) as [id|]; [|intros H; injection H as <- <-; intros g []]. destruct (nth_error nodes id) as [n|]; [|discriminate]. destruct (vnMesh n) as [k|]; [|discriminate].
    intros H. injection H as <- <-. intros g [<-|[]]. auto.
Qed.
Lemma map_morphs_in nodes meshes maps : forall gs us m, map_morphs nodes meshes maps = Some (gs, us) -> In m maps -> exists g u, map_morph nodes meshes m = Some (g, u) /\ incl g gs.
Proof.
  induction maps as [|x r IH]; intros gs us m H Hm; [destruct Hm|]. cbn [map_morphs] in H.
  destruct (map_morph nodes meshes x) as [[g u]|] eqn:E1; [|discriminate]. destruct (map_morphs nodes meshes r) as [[gs1 us1]|]; [|discriminate]. injection H as <- <-. destruct Hm as [<-|Hm].
  - exists g, u. split; [exact E1|]. intros y Hy. apply in_or_app. auto.
  - destruct (IH _ _ _ eq_refl Hm) as (g0 & u0 & E & I). exists g0, u0. split; [exact E|]. intros y Hy. apply in_or_app. right. apply I, Hy.
Qed.
(** A mapping to a target that exists gives a preset group driving a target of that name. *)
Theorem morphs_mapped all nodes meshes maps out : Forall (fun m => vmeTyped m = true) meshes -> apply_morphs all nodes meshes maps = Some out ->
  forall mp m i, In mp maps -> mmTarget mp <> ""%string -> is_target meshes m i (mmTarget mp) ->
  exists g m' i', In g out /\ bgName g = mmName mp /\ bgPreset g = mmName mp /\ bgBinds g = [(m', i')] /\ is_target meshes m' i' (mmTarget mp) /\ bgValues g = mmValues mp.
Proof.
  intros F H mp m i Hmp NE HT. unfold apply_morphs in H. destruct (map_morphs nodes meshes maps) as [[gs us]|] eqn:E; [|discriminate]. injection H as <-.
  destruct (map_morphs_in _ _ _ _ _ _ E Hmp) as (g & u & Em & I). unfold map_morph in Em. destruct (String.eqb_spec (mmTarget mp) "") as [X|_]; [contradiction|]. cbn [negb] in Em.
  assert (HA : In (mmTarget mp, (m, i)) (all_targets meshes)) by (apply all_targets_in; split; [exact HT|]; intros mesh Hm; rewrite Forall_forall in F; apply F; eapply nth_error_In; exact Hm).
  destruct (target_at_some _ _ _ HA) as ([m' i'] & Et). rewrite Et in Em. injection Em as <- <-. apply target_at_in, all_targets_in in Et as (Et & _).
  eexists _, m', i'. split; [apply in_or_app; left; apply I; left; reflexivity|]. cbn [bgName bgPreset bgBinds bgValues]. auto.
Qed.
(** The program crashes exactly at a mapping to a node that is not a mesh. *)
Theorem morphs_crash all nodes meshes maps : apply_morphs all nodes meshes maps = None <->
  exists mp id, In mp maps /\ mmTarget mp = ""%string /\ bone_node nodes (mmNode mp) id.
Proof.
  assert (A : forall m, map_morph nodes meshes m = None <-> mmTarget m = ""%string /\ exists id, bone_node nodes (mmNode m) id).
  { intros m. unfold map_morph. destruct (String.eqb_spec (mmTarget m) "") as [E|E]; cbn [negb].
    - destruct (node_id nodes (mmNode m)) as [id|] eqn:En.
      + apply node_id_some in En. pose proof En as ((n & Hn & _) & _). rewrite Hn. destruct (vnMesh n) as [k|] eqn:Ek.
        * split; [discriminate|]. intros (_ & id' & L & NM). rewrite (named_unique _ _ _ _ L En) in NM. rewrite (NM n Hn) in Ek. discriminate.
        * split; [|reflexivity]. intros _. split; [exact E|]. exists id. split; [exact En|]. intros n' Hn'. congruence.
      + split; [discriminate|]. intros (_ & id & L & _). contradiction (node_id_none _ _ En id L).
    - destruct (target_at meshes (mmTarget m)); (split; [discriminate|intros (X & _); contradiction]). }
  assert (B : map_morphs nodes meshes maps = None <-> exists mp, In mp maps /\ map_morph nodes meshes mp = None).
  { induction maps as [|m r IH]; cbn [map_morphs]; [split; [discriminate|intros (mp & [] & _)]|]. destruct (map_morph nodes meshes m) as [[g u]|] eqn:E.
    - destruct (map_morphs nodes meshes r) as [[gs us]|].
      + split; [discriminate|]. intros (mp & [<-|Hmp] & Hm); [congruence|]. assert (Some (gs, us) = None) by (apply IH; eauto). discriminate.
      + split; [|reflexivity]. intros _. destruct (proj1 IH eq_refl) as (mp & Hmp & Hm). exists mp. split; [right; exact Hmp|exact Hm].
    - split; [|reflexivity]. intros _. exists m. split; [left; reflexivity|exact E]. }
  unfold apply_morphs. transitivity (map_morphs nodes meshes maps = None); [destruct (map_morphs nodes meshes maps) as [[gs us]|]; split; congruence|].
  rewrite B. split.
  - intros (mp & Hmp & H). apply A in H as (E & id & H). eauto 6.
  - intros (mp & id & Hmp & E & H). exists mp. split; [exact Hmp|]. apply A. eauto.
Qed.

(** All groups, mapping by mapping, and then the targets that are left. *)
Lemma map_morph_groups nodes meshes mp gs us : map_morph nodes meshes mp = Some (gs, us) -> groups_of nodes meshes mp gs.
Proof.
  unfold map_morph, groups_of. destruct (String.eqb_spec (mmTarget mp) "") as [E|E]; cbn [negb]; intros H.
  - repeat (split; [intros; contradiction|]). split.
    + intros _ id n mesh L Hn Hm. apply node_id_some in L. rewrite L, Hn, Hm in H. injection H as <- <-. reflexivity.
    + intros _ L. destruct (node_id nodes (mmNode mp)) as [id|] eqn:En; [apply node_id_some in En; destruct (L id En)|]. injection H as <- <-. reflexivity.
  - destruct (target_at meshes (mmTarget mp)) as [[m i]|] eqn:Et.
    + apply target_at_in, all_targets_in in Et. injection H as <- <-. split; [intros _ _; exists m, i; split; [exact Et|reflexivity]|]. split; [intros _ K; destruct (K m i Et)|]. split; [intros _ K; destruct (K m i Et)|]. split; intros; contradiction.
    + assert (K : forall m i, ~ known_target meshes m i (mmTarget mp)) by (intros m i K; apply all_targets_in in K; destruct (target_at_some _ _ _ K) as (t & Q); congruence). injection H as <- <-. split; [intros _ (m & i & X); destruct (K m i X)|].
      split; [intros _ _ ->; reflexivity|]. split; [intros _ _ N; destruct (mmValues mp); [contradiction|reflexivity]|]. split; intros; contradiction.
Qed.
Theorem morphs_groups all nodes meshes maps out : apply_morphs all nodes meshes maps = Some out -> exists gss rest, out = concat gss ++ rest /\ Forall2 (groups_of nodes meshes) maps gss /\ (all = false -> rest = []) /\
  Forall (fun g => bgPreset g = ""%string /\ bgValues g = O /\ exists m i, bgBinds g = [(m, i)] /\ known_target meshes m i (bgName g) /\ forall g', In g' (concat gss) -> ~ drives g' m i) rest.
Proof.
  intros H. unfold apply_morphs in H. destruct (map_morphs nodes meshes maps) as [[gs us]|] eqn:E; [|discriminate]. injection H as <-.
  assert (G : exists gss, gs = concat gss /\ Forall2 (groups_of nodes meshes) maps gss).
  { revert gs us E. induction maps as [|m r IH]; intros gs us E; cbn [map_morphs] in E; [injection E as <- <-; exists []; split; [reflexivity|constructor]|].
    destruct (map_morph nodes meshes m) as [[g u]|] eqn:E1; [|discriminate]. destruct (map_morphs nodes meshes r) as [[gs1 us1]|]; [|discriminate]. injection E as <- <-. destruct (IH _ _ eq_refl) as (gss & -> & F). exists (g :: gss). split; [reflexivity|]. constructor; [eapply map_morph_groups; exact E1|exact F]. }
  assert (U : forall g t, In g gs -> In t (bgBinds g) -> In t us).
  { clear G. revert gs us E. induction maps as [|m r IH]; intros gs us E g t Hg Ht; cbn [map_morphs] in E; [injection E as <- <-; destruct Hg|].
    destruct (map_morph nodes meshes m) as [[g1 u]|] eqn:E1; [|discriminate]. destruct (map_morphs nodes meshes r) as [[gs1 us1]|]; [|discriminate]. injection E as <- <-. apply in_or_app. apply in_app_or in Hg as [Hg|Hg]; [left|right; eapply IH; [reflexivity|exact Hg|exact Ht]].
    destruct (map_morph_ok _ _ _ _ _ E1 g Hg) as (_ & _ & [B|B]); rewrite B in Ht; [exact Ht|destruct Ht]. }
  destruct G as (gss & Eg & F). exists gss, (if all then rest_morphs meshes us else []). rewrite Eg. split; [reflexivity|]. split; [exact F|]. split; [intros ->; reflexivity|]. rewrite <- Eg. destruct all; [|constructor].
  apply Forall_forall. intros g Hg. unfold rest_morphs in Hg. apply in_flat_map in Hg as ([name [m i]] & Hin & Hg). cbn [fst snd] in Hg. destruct (existsb (bind_eqb (m, i)) us) eqn:Ee; [destruct Hg|]. destruct Hg as [<-|[]]. cbn [bgPreset bgValues bgBinds bgName].
  split; [reflexivity|]. split; [reflexivity|]. exists m, i. split; [reflexivity|]. split; [apply all_targets_in; exact Hin|]. intros g' Hg' D. assert (X : existsb (bind_eqb (m, i)) us = true) by (apply existsb_exists; exists (m, i); split; [eapply U; eassumption|]; unfold bind_eqb; cbn [fst snd]; rewrite Nat.eqb_refl, Z.eqb_refl; reflexivity). congruence.
Qed.
