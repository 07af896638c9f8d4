(** Proofs about the extensions of exported materials. *)
From Coq Require Import String List ZArith QArith Bool Lia Permutation.
From Verif.Model Require Import Num Vec Mqo MqoDoc Gltf Mqo2Gltf Mqo2GltfTextures GltfExts.
From Verif.Spec Require Import TextureSpec GltfExtSpec.
From Verif.Proofs Require Import TextureProofs.
Import ListNotations.
Local Open Scope list_scope.

Section World.
Variables (file : string -> option (list Z)) (decode_tga decode : list Z -> option pic) (resample : Z -> Z -> pic -> pic)
  (png jpeg : pic -> option (list Z)) (join : string -> string) (opts : topts).

Definition field_value (e : matex2 Q) (f : extfield) (v : option extval) : Prop :=
  match f with
  | FNum _ p => v = if Qeq_bool (float_param e p) 0 then None else Some (XNum (float_param e p))
  | FColor _ p => match color_param e p with None => v = None | Some c => (3 <= length c)%nat /\ v = Some (XColor (firstn 3 c)) end
  | FTex _ _ => True
  end.
Lemma field_entry e f st l st' : ext_field file decode_tga decode resample png jpeg join opts e st f = Some (l, st') ->
  (forall k, In k (map fst l) -> k = field_key f) /\ field_value e f (value (field_key f) l).
Proof.
  intros E. destruct f as [k p|k p|k m]; cbn [ext_field field_key field_value] in *.
  - injection E as <- <-. destruct (Qeq_bool (float_param e p) 0); cbn; [intuition|]. rewrite String.eqb_refl. intuition.
  - destruct (color_param e p) as [c|]; [|injection E as <- <-; cbn; intuition].
    destruct (Nat.ltb_spec (length c) 3); [discriminate|]. injection E as <- <-. cbn. rewrite String.eqb_refl. intuition.
  - destruct (try_texture file decode_tga decode resample png jpeg join opts st (mapping (exMapping e) m)) as [t st1]. injection E as <- <-. split; [|exact I].
    destruct t; cbn; intuition.
Qed.
Lemma fields_entry e fs : forall st l st', NoDup (map field_key fs) -> ext_fields file decode_tga decode resample png jpeg join opts e st fs = Some (l, st') ->
  (forall k, In k (map fst l) -> In k (map field_key fs)) /\ (forall f, In f fs -> field_value e f (value (field_key f) l)).
Proof.
  induction fs as [|f r IH]; cbn [ext_fields]; intros st l st' ND E.
  { injection E as <- <-. split; intros; contradiction. }
  destruct (ext_field file decode_tga decode resample png jpeg join opts e st f) as [[l1 st1]|] eqn:E1; [|discriminate].
  destruct (ext_fields file decode_tga decode resample png jpeg join opts e st1 r) as [[l2 st2]|] eqn:E2; [|discriminate]. injection E as <- <-.
  cbn [map] in ND. inversion ND as [|? ? N1 N2]; subst. destruct (field_entry _ _ _ _ _ E1) as [K1 V1]. destruct (IH _ _ _ N2 E2) as [K2 V2]. split.
  - intros k. rewrite map_app, in_app_iff. intros [H|H]; [left; symmetry; apply K1; exact H|right; apply K2; exact H].
  - intros g [<-|H]; rewrite value_app.
    + rewrite (value_none (field_key f) l2) by (intros X; apply N1, K2, X). destruct (value (field_key f) l1); exact V1.
    + rewrite (value_none (field_key g) l1); [apply V2; exact H|]. intros X. apply K1 in X. apply N1. rewrite <- X. apply in_map. exact H.
Qed.
Lemma exts_entry e xs : forall st l st', NoDup (ext_names xs) -> Forall (fun x => NoDup (map field_key (snd x))) xs ->
  mat_exts file decode_tga decode resample png jpeg join opts e st xs = Some (l, st') ->
  (forall k, In k (map fst l) -> In k (ext_names xs)) /\
  (forall flag x fs, In (flag, x, fs) xs -> if bool_param e flag then exists v, value x l = Some v /\ (forall f, In f fs -> field_value e f (value (field_key f) v)) else value x l = None).
Proof.
  induction xs as [|[[flag name] fs] r IH]; intros st l st' ND NF E; cbn [mat_exts] in E.
  { injection E as <- <-. split; intros; contradiction. }
  cbn [ext_names map fst snd] in ND. inversion ND as [|? ? N1 N2]; subst. inversion NF as [|? ? F1 F2]; subst. cbn [snd] in F1. destruct (bool_param e flag) eqn:B.
  - destruct (ext_fields file decode_tga decode resample png jpeg join opts e st fs) as [[l1 st1]|] eqn:E1; [|discriminate].
    destruct (mat_exts file decode_tga decode resample png jpeg join opts e st1 r) as [[l2 st2]|] eqn:E2; [|discriminate]. injection E as <- <-.
    destruct (fields_entry _ _ _ _ _ F1 E1) as [K1 V1]. destruct (IH _ _ _ N2 F2 E2) as [K2 V2]. split.
    + intros k [H|H]; [left; exact H|right; apply K2; exact H].
    + intros flag' x fs' [H|H].
      * injection H as <- <- <-. rewrite B. exists l1. cbn [value]. rewrite String.eqb_refl. auto.
      * specialize (V2 _ _ _ H). cbn [value]. destruct (String.eqb_spec x name) as [->|]; [|exact V2]. exfalso. apply N1. apply in_map_iff. exists (flag', name, fs'). auto.
  - destruct (IH _ _ _ N2 F2 E) as [K2 V2]. split; [intros k H; right; apply K2; exact H|].
    intros flag' x fs' [H|H]; [|apply V2; exact H]. injection H as <- <- <-. rewrite B. apply value_none. intros X. apply N1, K2, X.
Qed.

Lemma param_value (e : matex2 Q) k : param_of (exParams e) k = value k (exParams e).
Proof. induction (exParams e) as [|[k' v] r IH]; cbn; [reflexivity|]. rewrite String.eqb_sym. destruct (String.eqb k k'); [reflexivity|exact IH]. Qed.
Lemma numbers_in flag x key p d : In (flag, x, key, p, d) extension_numbers -> exists fs, In (flag, x, fs) gltf_exts /\ In (FNum key p) fs.
Proof.
  unfold extension_numbers. cbn [In]. intros H.
  repeat match type of H with _ \/ _ => destruct H as [H|H] | False => destruct H end; injection H as <- <- <- <- _;
    (eexists; split; [unfold gltf_exts; cbn [In]; first [left; reflexivity|right; left; reflexivity|right; right; left; reflexivity|right; right; right; left; reflexivity|
       right; right; right; right; left; reflexivity|right; right; right; right; right; left; reflexivity]|cbn [In]; tauto]).
Qed.
Lemma colors_in flag x key p : In (flag, x, key, p) extension_colors -> exists fs, In (flag, x, fs) gltf_exts /\ In (FColor key p) fs.
Proof.
  unfold extension_colors. cbn [In]. intros H.
  repeat match type of H with _ \/ _ => destruct H as [H|H] | False => destruct H end; injection H as <- <- <- <-;
    (eexists; split; [unfold gltf_exts; cbn [In]; first [left; reflexivity|right; left; reflexivity|right; right; left; reflexivity|right; right; right; left; reflexivity|
       right; right; right; right; left; reflexivity|right; right; right; right; right; left; reflexivity]|cbn [In]; tauto]).
Qed.

Lemma tmat_split o99 rough st m r t st' : convert_tmat file decode_tga decode resample png jpeg join opts o99 rough st m r = Some (t, st') ->
  (exists al, tmMat t = convert_material (toForceUnlit opts) o99 rough (fun _ => al) m) /\
  ((exists e st1, gltf_shader m e /\ mat_exts file decode_tga decode resample png jpeg join opts e st gltf_exts = Some (tmExts t, st1)) \/ ((forall e, ~ gltf_shader m e) /\ tmExts t = [])).
Proof.
  intros E. unfold convert_tmat in E.
  assert (REST : forall al xs st1, (let (b, st2) := try_texture file decode_tga decode resample png jpeg join opts st1 (mtTexture m) in
     let (n, st3) := try_texture file decode_tga decode resample png jpeg join opts st2 (mtBump m) in
     (mkTM (convert_material (toForceUnlit opts) o99 rough (fun _ => al) m) b n xs, st3)) = (t, st') ->
     (exists al, tmMat t = convert_material (toForceUnlit opts) o99 rough (fun _ => al) m) /\ tmExts t = xs).
  { intros al xs st1. destruct (try_texture file decode_tga decode resample png jpeg join opts st1 (mtTexture m)) as [b st2].
    destruct (try_texture file decode_tga decode resample png jpeg join opts st2 (mtBump m)) as [n st3]. intros R. injection R as <- _. split; [exists al; reflexivity|reflexivity]. }
  destruct (match mtEx2 m with Some e => if String.eqb (exName e) "glTF" then Some e else None | None => None end) as [e|] eqn:Ee.
  - assert (G : gltf_shader m e).
    { unfold gltf_shader. destruct (mtEx2 m) as [e'|]; [|discriminate]. destruct (String.eqb_spec (exName e') "glTF"); [|discriminate]. injection Ee as ->. auto. }
    destruct (mat_exts file decode_tga decode resample png jpeg join opts e st gltf_exts) as [[xs st1]|] eqn:Ex; [|discriminate]. cbn [option_map fst snd] in E.
    apply (f_equal (fun o => match o with Some x => x | None => (t, st') end)) in E. apply REST in E. destruct E as [E1 E2]. split; [exact E1|]. left. exists e, st1. rewrite E2. auto.
  - assert (G : forall e, ~ gltf_shader m e) by (intros e [H1 H2]; rewrite H1, H2 in Ee; discriminate).
    destruct (nltb (qw (mtColor m)) o99); [|destruct (toDetect opts)].
    + apply (f_equal (fun o => match o with Some x => x | None => (t, st') end)) in E. apply REST in E. destruct E as [E1 E2]. auto.
    + destruct (has_alpha file decode_tga decode join st (mtTexture m) r) as [a st1]. apply (f_equal (fun o => match o with Some x => x | None => (t, st') end)) in E. apply REST in E. destruct E as [E1 E2]. auto.
    + apply (f_equal (fun o => match o with Some x => x | None => (t, st') end)) in E. apply REST in E. destruct E as [E1 E2]. auto.
Qed.
Lemma tmats_forall (P : material Q -> tmat -> Prop) o99 rough :
  (forall st m r t st', convert_tmat file decode_tga decode resample png jpeg join opts o99 rough st m r = Some (t, st') -> P m t) ->
  forall ms st ts st', convert_tmats file decode_tga decode resample png jpeg join opts o99 rough st ms = Some (ts, st') -> Forall2 (fun p t => P (fst p) t) ms ts.
Proof.
  intros H. induction ms as [|[m r] ms IH]; intros st ts st' E; cbn [convert_tmats] in E; [injection E as <- _; constructor|].
  destruct (convert_tmat file decode_tga decode resample png jpeg join opts o99 rough st m r) as [[t st1]|] eqn:E1; [|discriminate].
  destruct (convert_tmats file decode_tga decode resample png jpeg join opts o99 rough st1 ms) as [[l st2]|] eqn:E2; [|discriminate]. injection E as <- _.
  constructor; [exact (H _ _ _ _ _ E1)|exact (IH _ _ _ E2)].
Qed.

Theorem ext_numbers o99 rough ms st ts st' : convert_tmats file decode_tga decode resample png jpeg join opts o99 rough st ms = Some (ts, st') ->
  Forall2 (fun p t => forall e, gltf_shader (fst p) e -> forall flag x key k def, In (flag, x, key, k, def) extension_numbers ->
    if turned_on e flag
    then present t x /\ (forall v, number_given e k = Some v -> writable v def -> same_number (number_of t x key def) (Some v)) /\
         (number_given e k = None -> number_of t x key def = def)
    else ~ present t x) ms ts.
Proof.
  apply (tmats_forall (fun m t => forall e, gltf_shader m e -> forall flag x key k def, In (flag, x, key, k, def) extension_numbers ->
    if turned_on e flag
    then present t x /\ (forall v, number_given e k = Some v -> writable v def -> same_number (number_of t x key def) (Some v)) /\
         (number_given e k = None -> number_of t x key def = def)
    else ~ present t x)).
  clear. intros st m r t st' E e G flag x key k def I. destruct (tmat_split _ _ _ _ _ _ _ E) as [_ [(e' & st1 & [G1 G2] & X)|[C _]]]; [|exfalso; exact (C e G)].
  destruct G as [G3 _]. rewrite G1 in G3. injection G3 as ->. destruct table_keys as [T1 T2]. destruct (exts_entry _ _ _ _ _ T1 T2 X) as [_ V].
  destruct (numbers_in _ _ _ _ _ I) as (fs & I1 & I2). specialize (V _ _ _ I1). rewrite flag_on in V. unfold present, number_of, entry.
  destruct (turned_on e flag); [|rewrite V; auto].
  destruct V as (l & -> & V). specialize (V _ I2). cbn [field_value field_key] in V. split; [discriminate|]. rewrite V.
  unfold float_param, number_given. rewrite param_value. split.
  - intros v Hv W. destruct (value k (exParams e)) as [[]|]; try discriminate. injection Hv as ->. destruct (Qeq_bool v 0) eqn:Z.
    + apply Qeq_bool_iff in Z. destruct W as [W|W]; [contradiction|]. destruct def as [d|]; cbn in *; [rewrite W, Z; reflexivity|exact W].
    + cbn. reflexivity.
  - intros H. destruct (value k (exParams e)) as [[]|]; try discriminate; reflexivity.
Qed.
Theorem ext_colors o99 rough ms st ts st' : convert_tmats file decode_tga decode resample png jpeg join opts o99 rough st ms = Some (ts, st') ->
  Forall2 (fun p t => forall e, gltf_shader (fst p) e -> forall flag x key k, In (flag, x, key, k) extension_colors ->
    if turned_on e flag then present t x /\ entry t x key = match color_given e k with Some (r :: g :: b :: _) => Some (XColor [r; g; b]) | _ => None end else ~ present t x) ms ts.
Proof.
  apply (tmats_forall (fun m t => forall e, gltf_shader m e -> forall flag x key k, In (flag, x, key, k) extension_colors ->
    if turned_on e flag then present t x /\ entry t x key = match color_given e k with Some (r :: g :: b :: _) => Some (XColor [r; g; b]) | _ => None end else ~ present t x)).
  clear. intros st m r t st' E e G flag x key k I. destruct (tmat_split _ _ _ _ _ _ _ E) as [_ [(e' & st1 & [G1 G2] & X)|[C _]]]; [|exfalso; exact (C e G)].
  destruct G as [G3 _]. rewrite G1 in G3. injection G3 as ->. destruct table_keys as [T1 T2]. destruct (exts_entry _ _ _ _ _ T1 T2 X) as [_ V].
  destruct (colors_in _ _ _ _ I) as (fs & I1 & I2). specialize (V _ _ _ I1). rewrite flag_on in V. unfold present, entry.
  destruct (turned_on e flag); [|rewrite V; auto].
  destruct V as (l & -> & V). specialize (V _ I2). cbn [field_value field_key] in V. split; [discriminate|].
  unfold color_param, color_given in *. rewrite param_value in V. destruct (value k (exParams e)) as [[z|x0|b0|c|s]|]; try exact V.
  destruct V as [L ->]. destruct c as [|a [|b [|d c]]]; cbn in L; try lia. reflexivity.
Qed.
(** Without the glTF shader there are no extensions of this kind. *)
Theorem ext_none o99 rough ms st ts st' : convert_tmats file decode_tga decode resample png jpeg join opts o99 rough st ms = Some (ts, st') ->
  Forall2 (fun p t => (forall e, ~ gltf_shader (fst p) e) -> tmExts t = []) ms ts.
Proof.
  apply (tmats_forall (fun m t => (forall e, ~ gltf_shader m e) -> tmExts t = [])). clear. intros st m r t st' E H.
  destruct (tmat_split _ _ _ _ _ _ _ E) as [_ [(e' & st1 & G & X)|[_ C]]]; [exfalso; exact (H _ G)|exact C].
Qed.
Lemma number_or e k : float_param e k = match number_given e k with Some v => v | None => 0%Q end.
Proof. unfold float_param, number_given. rewrite param_value. destruct (value k (exParams e)) as [[]|]; reflexivity. Qed.
Theorem base_factors o99 rough ms st ts st' : convert_tmats file decode_tga decode resample png jpeg join opts o99 rough st ms = Some (ts, st') ->
  Forall2 (fun p t => forall e, gltf_shader (fst p) e ->
    gtName (tmMat t) = mtName (fst p) /\ gtColor (tmMat t) = mtColor (fst p) /\ gtDouble (tmMat t) = mtDouble (fst p) /\
    (forall v, number_given e "Metallic" = Some v -> gtMetal (tmMat t) = v) /\ (forall v, number_given e "Roughness" = Some v -> gtRough (tmMat t) = v) /\
    (forall v, value "AlphaMode"%string (exParams e) = Some (PInt v) ->
       (v = 1%Z -> gtAlpha (tmMat t) = GOpaque) /\ (v = 3%Z -> gtAlpha (tmMat t) = GBlend) /\
       (v = 2%Z -> forall c, number_given e "AlphaCutOff" = Some c -> gtAlpha (tmMat t) = GMask c)) /\
    (turned_on e "Extensions.Unlit" = true -> gtUnlit (tmMat t) = true)) ms ts.
Proof.
  match goal with |- _ -> Forall2 (fun p t => ?P) _ _ => idtac end.
  apply (tmats_forall (fun m t => forall e, gltf_shader m e ->
    gtName (tmMat t) = mtName m /\ gtColor (tmMat t) = mtColor m /\ gtDouble (tmMat t) = mtDouble m /\
    (forall v, number_given e "Metallic" = Some v -> gtMetal (tmMat t) = v) /\ (forall v, number_given e "Roughness" = Some v -> gtRough (tmMat t) = v) /\
    (forall v, value "AlphaMode"%string (exParams e) = Some (PInt v) ->
       (v = 1%Z -> gtAlpha (tmMat t) = GOpaque) /\ (v = 3%Z -> gtAlpha (tmMat t) = GBlend) /\
       (v = 2%Z -> forall c, number_given e "AlphaCutOff" = Some c -> gtAlpha (tmMat t) = GMask c)) /\
    (turned_on e "Extensions.Unlit" = true -> gtUnlit (tmMat t) = true))).
  clear. intros st m r t st' E e [G1 G2]. destruct (tmat_split _ _ _ _ _ _ _ E) as [(al & ->) _]. unfold convert_material. rewrite G1, G2, String.eqb_refl.
  cbn [gtName gtColor gtDouble gtMetal gtRough gtAlpha gtUnlit]. do 3 (split; [reflexivity|]).
  split; [intros v H; rewrite number_or, H; reflexivity|]. split; [intros v H; rewrite number_or, H; reflexivity|]. split.
  - intros v H. unfold int_param. rewrite param_value, H. repeat split; intros ->; [reflexivity|reflexivity|]. intros c Hc. cbn. rewrite number_or, Hc. reflexivity.
  - intros H. rewrite flag_on, H. reflexivity.
Qed.
End World.

Theorem used_listed order lights physics ts : (forall l, Permutation l (order l)) ->
  NoDup (extensions_used order lights physics ts) /\
  (forall x, In x (extensions_used order lights physics ts) <->
    (exists t, In t ts /\ (In x (map fst (tmExts t)) \/ x = "KHR_materials_unlit"%string /\ gtUnlit (tmMat t) = true)) \/
    (x = "KHR_lights_punctual"%string /\ lights = true) \/ (x = "BLENDER_physics"%string /\ physics = true)).
Proof.
  intros P. unfold extensions_used. split; [eapply Permutation_NoDup; [apply P|]; apply NoDup_nodup|].
  intros x. assert (Q : In x (order (ext_keys lights physics ts)) <-> In x (ext_keys lights physics ts)) by (split; apply Permutation_in; [apply Permutation_sym|]; apply P).
  rewrite Q. unfold ext_keys. rewrite nodup_In, !in_app_iff, in_flat_map. unfold material_exts. split.
  - intros [H|[(t & I & H)|H]].
    + destruct lights; [destruct H as [<-|[]]; auto|destruct H].
    + left. exists t. split; [exact I|]. apply in_app_iff in H. destruct H as [H|H]; [left; exact H|right]. destruct (gtUnlit (tmMat t)); [destruct H as [<-|[]]; auto|destruct H].
    + destruct physics; [destruct H as [<-|[]]; auto|destruct H].
  - intros [(t & I & [H|[-> H]])|[[-> ->]|[-> ->]]].
    + right. left. exists t. split; [exact I|]. apply in_app_iff. left. exact H.
    + right. left. exists t. split; [exact I|]. apply in_app_iff. right. rewrite H. left. reflexivity.
    + left. left. reflexivity.
    + right. right. left. reflexivity.
Qed.
