(** Saving and loading plugins (C110). *)
From Coq Require Import String Ascii List ZArith Bool Arith Lia.
From Verif.Model Require Import Num Vec Matrix Mqo MqoDoc MqoText MqoLex Cli Mqx.
From Verif.Spec Require Import TextSpec MqxSpec.
From Verif.Proofs Require Import MqoLexProofs MqoTextMore BoneProofs MqoDocProofs.
Import ListNotations.
Local Open Scope string_scope.
Local Open Scope list_scope.

Section Xml.
Context {T : Type} {N : Num T}.

Lemma lookup_app n (a b : list (string * xval T)) : lookup n (a ++ b) = match lookup n b with Some x => Some x | None => lookup n a end.
Proof. induction a as [|(m, v) a IH]; cbn; [destruct (lookup n b); reflexivity|]. rewrite IH. destruct (lookup n b); reflexivity. Qed.
Lemma lookup_oi_ne n m z : String.eqb m n = false -> @lookup T n (o_int m z) = None.
Proof. intros H. unfold o_int. destruct (z =? 0)%Z; [reflexivity|]. cbn. now rewrite H. Qed.
Lemma lookup_os_ne n m z : String.eqb m n = false -> @lookup T n (o_str m z) = None.
Proof. intros H. unfold o_str. destruct (String.eqb z ""); [reflexivity|]. cbn. now rewrite H. Qed.
Lemma lookup_ov_ne n m (v : option (vec3 T)) : String.eqb m n = false -> lookup n (o_vec m v) = None.
Proof. intros H. destruct v; [cbn; now rewrite H|reflexivity]. Qed.
Lemma lookup_one_ne n m (v : xval T) : String.eqb m n = false -> lookup n [(m, v)] = None.
Proof. intros H. cbn. now rewrite H. Qed.
Lemma lookup_one n (v : xval T) : lookup n [(n, v)] = Some v.
Proof. cbn. now rewrite String.eqb_refl. Qed.
Lemma lookup_oi n z : @lookup T n (o_int n z) = if (z =? 0)%Z then None else Some (XInt z).
Proof. unfold o_int. destruct (z =? 0)%Z; [reflexivity|]. apply lookup_one. Qed.
Lemma lookup_os n z : @lookup T n (o_str n z) = if String.eqb z "" then None else Some (XStr z).
Proof. unfold o_str. destruct (String.eqb z ""); [reflexivity|]. apply lookup_one. Qed.
Lemma lookup_ov n (v : option (vec3 T)) : lookup n (o_vec n v) = option_map XVec v.
Proof. destruct v; [apply lookup_one|reflexivity]. Qed.

Lemma every_map {A B} (w : A -> B) r l : (forall x, In x l -> r (w x) = Some x) -> every r (map w l) = Some l.
Proof.
  induction l as [|x l IH]; intros H; [reflexivity|]. cbn [map every]. rewrite (H x (or_introl eq_refl)). cbn [bind]. rewrite IH; [reflexivity|]. intros y Hy. apply H. now right.
Qed.
Lemma kids_all {A} n (w : A -> xelem T) l : (forall x, el_name (w x) = n) -> kids_of n (map w l) = map w l.
Proof. intros H. unfold kids_of. induction l as [|x l IH]; [reflexivity|]. cbn [map filter]. unfold named at 1. rewrite H, String.eqb_refl. now rewrite IH. Qed.
Lemma kids_none {A} n m (w : A -> xelem T) l : (forall x, el_name (w x) = m) -> String.eqb m n = false -> kids_of n (map w l) = [].
Proof. intros H E. unfold kids_of. induction l as [|x l IH]; [reflexivity|]. cbn [map filter]. unfold named at 1. rewrite H, E. exact IH. Qed.
Lemma kids_app n (a b : list (xelem T)) : kids_of n (a ++ b) = kids_of n a ++ kids_of n b.
Proof. apply filter_app. Qed.

Ltac look := repeat match goal with
  | |- context [lookup ?n (o_int ?m ?z)] => rewrite (lookup_oi_ne n m z) by reflexivity
  | |- context [lookup ?n (o_str ?m ?z)] => rewrite (lookup_os_ne n m z) by reflexivity
  | |- context [lookup ?n (o_vec ?m ?z)] => rewrite (lookup_ov_ne n m z) by reflexivity
  | |- context [lookup ?n [(?m, ?z)]] => rewrite (lookup_one_ne n m z) by reflexivity
  end.
Lemma weight_back (w : Z * list (Z * T)) : r_weight (w_weight w) = Some w.
Proof.
  destruct w as (o, l). unfold r_weight, w_weight. cbn [el_attrs el_kids fst snd]. unfold g_int, a_int at 1. rewrite lookup_one. cbn [bind].
  rewrite kids_all by reflexivity. rewrite every_map; [reflexivity|]. intros (v, x) _. reflexivity.
Qed.
Lemma ik_back (k : boneik) : @r_ik T (el_attrs (w_ik k)) = Some k.
Proof. destruct k; reflexivity. Qed.
Lemma bone_back (b : qbone T) : r_bone (w_bone b) = Some b.
Proof.
  unfold r_bone, w_bone. cbn [el_attrs el_kids]. set (a := bone_attrs b).
  assert (E1 : g_int "id" a = Some (qbID b)) by (unfold a, bone_attrs, g_int; rewrite !lookup_app; look; reflexivity).
  assert (E2 : g_str "name" a = Some (qbName b)) by (unfold a, bone_attrs, g_str; rewrite !lookup_app; look; reflexivity).
  assert (E3 : g_int "group" a = Some (qbGroup b)).
  { unfold a, bone_attrs, g_int; rewrite !lookup_app; look. rewrite lookup_oi. destruct (Z.eqb_spec (qbGroup b) 0) as [E|E]; [rewrite E|]; reflexivity. }
  assert (E4 : g_int "parent" a = Some (qbParent b)).
  { unfold a, bone_attrs, g_int; rewrite !lookup_app; look. rewrite lookup_oi. destruct (Z.eqb_spec (qbParent b) 0) as [E|E]; [rewrite E|]; reflexivity. }
  assert (E5 : g_vec "pos" a = Some (qbPos b)) by (unfold a, bone_attrs, g_vec, g_opt; rewrite !lookup_app; look; rewrite lookup_one; reflexivity).
  assert (E6 : g_int "movable" a = Some (qbMovable b)).
  { unfold a, bone_attrs, g_int; rewrite !lookup_app; look. rewrite lookup_oi. destruct (Z.eqb_spec (qbMovable b) 0) as [E|E]; [rewrite E|]; reflexivity. }
  assert (E7 : g_int "hide" a = Some (qbHide b)).
  { unfold a, bone_attrs, g_int; rewrite !lookup_app; look. rewrite lookup_oi. destruct (Z.eqb_spec (qbHide b) 0) as [E|E]; [rewrite E|]; reflexivity. }
  assert (E8 : g_int "dummy" a = Some (qbDummy b)).
  { unfold a, bone_attrs, g_int; rewrite !lookup_app; look. rewrite lookup_oi. destruct (Z.eqb_spec (qbDummy b) 0) as [E|E]; [rewrite E|]; reflexivity. }
  assert (E9 : g_str "color" a = Some (qbColor b)).
  { unfold a, bone_attrs, g_str; rewrite !lookup_app; look. rewrite lookup_os. destruct (String.eqb_spec (qbColor b) "") as [E|E]; [rewrite E|]; reflexivity. }
  assert (E10 : g_opt "upVector" a = Some (qbUp b)).
  { unfold a, bone_attrs, g_opt; rewrite !lookup_app; look. rewrite lookup_ov. destruct (qbUp b); reflexivity. }
  assert (E11 : g_opt "rotate" a = Some (qbRot b)).
  { unfold a, bone_attrs, g_opt; rewrite !lookup_app; look. rewrite lookup_ov. destruct (qbRot b); reflexivity. }
  rewrite E1, E2, E3, E4, E5, E6, E7, E8, E9, E10, E11. cbn [bind].
  assert (W1 : kids_of "W" (match qbIK b with Some k => [w_ik k] | None => [] end ++ map w_weight (qbWeights b)) = map (@w_weight T) (qbWeights b)).
  { rewrite kids_app, kids_all by reflexivity. destruct (qbIK b); reflexivity. }
  assert (W2 : kids_of "IK" (match qbIK b with Some k => [w_ik k] | None => [] end ++ map (@w_weight T) (qbWeights b)) = match qbIK b with Some k => [w_ik k] | None => [] end).
  { rewrite kids_app, (kids_none "IK" "W") by reflexivity. destruct (qbIK b); reflexivity. }
  unfold merge_attrs. rewrite W1, W2. rewrite every_map by (intros; apply weight_back). cbn [bind].
  destruct (qbIK b) as [k|] eqn:Ek.
  - change (flat_map el_attrs [w_ik k]) with (el_attrs (@w_ik T k)). rewrite ik_back. cbn [bind]. rewrite <- Ek. destruct b; reflexivity.
  - cbn [bind]. rewrite <- Ek. destruct b; reflexivity.
Qed.
Lemma old_back (b : oldbone T) : length (obNums b) = 19%nat -> r_old (w_old b) = Some b.
Proof.
  destruct b as [id nm gr du ns pa ch ws]. cbn [obNums]. intros L. do 19 (destruct ns as [|? ns]; [discriminate|]). destruct ns; [|discriminate].
  unfold r_old, w_old. cbn [el_attrs el_kids obID obName obGroup obDummy obNums obParent obChildren obWeights].
  set (k := leaf "P" [a_int "id" pa] :: map (fun c => leaf "C" [a_int "id" c]) ch ++ map (fun w : Z * Z * T => leaf "W" [a_int "oi" (fst (fst w)); a_int "vi" (snd (fst w)); a_num "w" (snd w)]) ws).
  assert (K1 : merge_attrs "P" k = [a_int "id" pa]).
  { unfold merge_attrs, k. change (leaf "P" ?a :: ?l) with ([@leaf T "P" a] ++ l). rewrite !kids_app, (kids_none "P" "C"), (kids_none "P" "W") by reflexivity. reflexivity. }
  assert (K2 : kids_of "C" k = map (fun c => @leaf T "C" [a_int "id" c]) ch).
  { unfold k. change (leaf "P" ?a :: ?l) with ([@leaf T "P" a] ++ l). rewrite !kids_app, kids_all, (kids_none "C" "W") by reflexivity. rewrite app_nil_r. reflexivity. }
  assert (K3 : kids_of "W" k = map (fun w : Z * Z * T => leaf "W" [a_int "oi" (fst (fst w)); a_int "vi" (snd (fst w)); a_num "w" (snd w)]) ws).
  { unfold k. change (leaf "P" ?a :: ?l) with ([@leaf T "P" a] ++ l). rewrite !kids_app, (kids_none "W" "C"), kids_all by reflexivity. reflexivity. }
  rewrite K1, K2, K3. rewrite (every_map _ (fun c => g_int "id" (el_attrs c)) ch) by reflexivity. rewrite (every_map _ r_oldweight ws) by (intros ((?, ?), ?) _; reflexivity).
  reflexivity.
Qed.
Lemma pose_back (p : bonepose T) : length (bpNums p) = 9%nat -> r_pose (w_pose p) = Some p.
Proof. destruct p as [id nm ns]. cbn [bpNums]. intros L. do 9 (destruct ns as [|? ns]; [discriminate|]). destruct ns; [|discriminate]. reflexivity. Qed.

Lemma bones_back (p : boneplugin T) : proper_plugin (PBones p) -> r_bones (el_attrs (w_bones p)) (el_kids (w_bones p)) = Some p.
Proof.
  intros [F1 F2]. rewrite Forall_forall in F1, F2. unfold r_bones, w_bones. cbn [el_attrs el_kids].
  set (h := [group "BoneSet" (map w_old (plOld p)); El "BoneSet2" [a_int "limit" (plLimit p)] (map w_bone (plBones p)) None; group "Poses" (map w_pose (plPoses p))]).
  set (t := map (fun id => leaf "Obj" [a_int "id" id]) (plObj p)).
  assert (K0 : forall n, String.eqb "Obj" n = false -> kids_of n (h ++ t) = kids_of n h) by (intros n H; rewrite kids_app; unfold t; rewrite (kids_none n "Obj") by (exact H || reflexivity); apply app_nil_r).
  assert (K1 : kids_of "Obj" (h ++ t) = t) by (rewrite kids_app; unfold t; rewrite kids_all by reflexivity; reflexivity).
  unfold merge_kids, merge_attrs. rewrite K1, !K0 by reflexivity. 
  change (kids_of "BoneSet" h) with [group "BoneSet" (map w_old (plOld p))]. change (kids_of "Poses" h) with [group "Poses" (map w_pose (plPoses p))].
  change (kids_of "BoneSet2" h) with [El "BoneSet2" [a_int "limit" (plLimit p)] (map w_bone (plBones p)) None]. cbn [flat_map el_kids el_attrs group]. rewrite !app_nil_r. change (g_str "name" [a_str "name" (plName p)]) with (Some (plName p)). cbn [bind].
  rewrite kids_all by reflexivity. rewrite (every_map _ r_old) by (intros; apply old_back; auto). cbn [bind].
  change (g_int "limit" [a_int "limit" (plLimit p)]) with (Some (plLimit p)). cbn [bind].
  rewrite kids_all by reflexivity. rewrite (every_map _ r_bone) by (intros; apply bone_back). cbn [bind].
  rewrite kids_all by reflexivity. rewrite (every_map _ r_pose) by (intros; apply pose_back; auto). cbn [bind].
  unfold t. rewrite (every_map _ (fun c => g_int "id" (el_attrs c))) by reflexivity. destruct p; reflexivity.
Qed.
Lemma morphs_back (p : morphplugin) : @r_morphs T (el_attrs (w_morphs p)) (el_kids (w_morphs p)) = Some p.
Proof.
  unfold r_morphs, w_morphs. cbn [el_attrs el_kids]. change (g_str "name" [a_str "name" (mpName p)]) with (Some (mpName p)). cbn [bind].
  unfold merge_kids.
  change (kids_of "MorphSet" [group "MorphSet" (map w_targets (mpTargets p))]) with [@group T "MorphSet" (map w_targets (mpTargets p))]. cbn [flat_map el_kids group]. rewrite app_nil_r, kids_all by reflexivity.
  rewrite every_map; [destruct p; reflexivity|]. intros (b, l) _. unfold r_targets, w_targets. cbn [el_attrs el_kids fst snd].
  change (g_str "base" [a_str "base" b]) with (Some b). cbn [bind]. rewrite kids_all by reflexivity. rewrite every_map; [reflexivity|]. intros (n, z) _. reflexivity.
Qed.

Definition bones_in (ps : list (plugin T)) : list (boneplugin T) := flat_map (fun p => match p with PBones b => [b] | _ => [] end) ps.
Definition morphs_in (ps : list (plugin T)) : list morphplugin := flat_map (fun p => match p with PMorphs m => [m] | _ => [] end) ps.
Lemma bones_kids ps : kids_of bone_tag (map w_plugin ps) = map w_bones (bones_in ps).
Proof. induction ps as [|p ps IH]; [reflexivity|]. destruct p; cbn [map bones_in flat_map app]; fold (bones_in ps); rewrite <- IH; reflexivity. Qed.
Lemma morphs_kids ps : kids_of morph_tag (map w_plugin ps) = map w_morphs (morphs_in ps).
Proof. induction ps as [|p ps IH]; [reflexivity|]. destruct p; cbn [map morphs_in flat_map app]; fold (morphs_in ps); rewrite <- IH; reflexivity. Qed.
Lemma in_bones ps b : In b (bones_in ps) <-> In (PBones b) ps.
Proof. unfold bones_in. rewrite in_flat_map. split; [intros (p & H & Hp); destruct p; cbn in Hp; [destruct Hp as [<-|[]]; exact H|contradiction|contradiction]|intros H; exists (PBones b); split; [exact H|now left]]. Qed.
Lemma in_morphs ps b : In b (morphs_in ps) <-> In (PMorphs b) ps.
Proof. unfold morphs_in. rewrite in_flat_map. split; [intros (p & H & Hp); destruct p; cbn in Hp; [contradiction|destruct Hp as [<-|[]]; exact H|contradiction]|intros H; exists (PMorphs b); split; [exact H|now left]]. Qed.
Lemma at_most ps : NoDup (map kind ps) -> (length (bones_in ps) <= 1)%nat /\ (length (morphs_in ps) <= 1)%nat.
Proof.
  induction ps as [|p ps IH]; intros H; [cbn; lia|]. inversion H as [|? ? H1 H2]; subst. destruct (IH H2) as (A & B).
  assert (Zb : kind p = 0%nat -> bones_in ps = []).
  { intros E. destruct (bones_in ps) as [|b r] eqn:Eb; [reflexivity|]. exfalso. apply H1. rewrite E. apply in_map_iff. exists (PBones b). split; [reflexivity|]. apply in_bones. rewrite Eb. now left. }
  assert (Zm : kind p = 1%nat -> morphs_in ps = []).
  { intros E. destruct (morphs_in ps) as [|b r] eqn:Eb; [reflexivity|]. exfalso. apply H1. rewrite E. apply in_map_iff. exists (PMorphs b). split; [reflexivity|]. apply in_morphs. rewrite Eb. now left. }
  destruct p; cbn [bones_in morphs_in flat_map app length]; fold (bones_in ps); fold (morphs_in ps); [rewrite (Zb eq_refl)|rewrite (Zm eq_refl)|]; cbn [length]; lia.
Qed.

Lemma read_written (os : list (object T)) ps name : proper ps ->
  exists ps', read_mqx (write_mqx os ps name) = Some ps' /\ length ps' = length (filter (fun p => negb (physical p)) ps) /\
    (forall p, In p ps -> physical p = false -> exists p', In p' ps' /\ same_plugin os p p') /\ (forall p', In p' ps' -> exists p, In p ps /\ same_plugin os p p').
Proof.
  intros [HN HP]. set (pb := fun b : boneplugin T => mkBPl "Bone" (plOld b) (plLimit b) (plBones b) (plPoses b) (pre_serialize (plugin_weighted b) os (plObj b))).
  assert (Bs : bones_in (map (pre_plugin os) ps) = map pb (bones_in ps)).
  { clear. induction ps as [|p ps IH]; [reflexivity|]. destruct p; cbn [map bones_in flat_map app]; fold (bones_in ps); fold (bones_in (map (pre_plugin os) ps)); rewrite IH; reflexivity. }
  assert (Ms : morphs_in (map (pre_plugin os) ps) = morphs_in ps).
  { clear. induction ps as [|p ps IH]; [reflexivity|]. destruct p; cbn [map morphs_in flat_map app]; fold (morphs_in ps); fold (morphs_in (map (pre_plugin os) ps)); rewrite IH; reflexivity. }
  assert (Kd : forall tag l, String.eqb "IncludedBy" tag = false -> kids_of tag (texted "IncludedBy" (XStr name) :: l) = @kids_of T tag l).
  { intros tag l E. unfold kids_of. cbn [filter]. unfold named at 1. cbn [el_name texted]. rewrite E. reflexivity. }
  destruct (at_most ps HN) as (Lb & Lm).
  assert (PB : forall b, In b (bones_in ps) -> proper_plugin (PBones (pb b))).
  { intros b Hb. apply in_bones in Hb. rewrite Forall_forall in HP. exact (HP _ Hb). }
  assert (OB : optional bone_tag (el_kids (write_mqx os ps name)) r_bones = Some (match bones_in ps with b :: _ => Some (pb b) | [] => None end)).
  { unfold optional, merge_attrs, merge_kids, write_mqx. cbn [el_kids]. rewrite Kd, bones_kids, Bs by reflexivity. destruct (bones_in ps) as [|b r]; [reflexivity|]. destruct r; [|cbn in Lb; lia].
    cbn [map flat_map]. rewrite !app_nil_r, bones_back by (apply PB; now left). reflexivity. }
  assert (OM : optional morph_tag (el_kids (write_mqx os ps name)) r_morphs = Some (match morphs_in ps with b :: _ => Some b | [] => None end)).
  { unfold optional, merge_attrs, merge_kids, write_mqx. cbn [el_kids]. rewrite Kd, morphs_kids, Ms by reflexivity. destruct (morphs_in ps) as [|b r]; [reflexivity|]. destruct r; [|cbn in Lm; lia].
    cbn [map flat_map]. rewrite !app_nil_r, morphs_back. reflexivity. }
  assert (R : read_mqx (write_mqx os ps name) = Some (map PBones (map pb (bones_in ps)) ++ map PMorphs (morphs_in ps))).
  { unfold read_mqx. rewrite OB, OM. unfold write_mqx, named. cbn [el_name]. rewrite String.eqb_refl. cbn [bind]. f_equal. f_equal.
    - destruct (bones_in ps) as [|b r]; [reflexivity|]. destruct r; [reflexivity|cbn in Lb; lia].
    - destruct (morphs_in ps) as [|b r]; [reflexivity|]. destruct r; [reflexivity|cbn in Lm; lia]. }
  assert (SB : forall b, same_plugin os (PBones b) (PBones (pb b))).
  { intros b. cbn. repeat (split; [reflexivity|]). intros id. rewrite pre_serialize_app. rewrite in_app_iff, saved_ids_In. unfold plugin_weighted, object_id, skins. rewrite in_app_iff.
    assert (A1 : In id (flat_map (fun b0 => map fst (qbWeights b0)) (plBones b)) <-> exists b0 w, In b0 (plBones b) /\ In w (qbWeights b0) /\ fst w = id).
    { rewrite in_flat_map. setoid_rewrite in_map_iff. split; [intros (x & A & y & B & C)|intros (x & y & A & B & C)]; exists x; [exists y; auto|split; [auto|exists y; auto]]. }
    assert (A2 : In id (flat_map (fun b0 => map (fun w => fst (fst w)) (obWeights b0)) (plOld b)) <-> exists b0 w, In b0 (plOld b) /\ In w (obWeights b0) /\ fst (fst w) = id).
    { rewrite in_flat_map. setoid_rewrite in_map_iff. split; [intros (x & A & y & B & C)|intros (x & y & A & B & C)]; exists x; [exists y; auto|split; [auto|exists y; auto]]. }
    rewrite A1, A2. reflexivity. }
  exists (map PBones (map pb (bones_in ps)) ++ map PMorphs (morphs_in ps)). split; [exact R|]. split; [|split].
  - rewrite app_length, !map_length. clear. induction ps as [|p ps IH]; [reflexivity|]. destruct p; cbn [bones_in morphs_in flat_map app length filter negb physical]; fold (bones_in ps); fold (morphs_in ps); cbn [length]; lia.
  - intros p Hp Hk. destruct p as [b|m|f]; [exists (PBones (pb b))|exists (PMorphs m)|discriminate].
    + split; [|apply SB]. apply in_app_iff. left. apply in_map, in_map, in_bones, Hp.
    + split; [|reflexivity]. apply in_app_iff. right. apply in_map, in_morphs, Hp.
  - intros p' Hp. apply in_app_iff in Hp as [Hp|Hp].
    + rewrite map_map in Hp. apply in_map_iff in Hp as (b & <- & Hb). exists (PBones b). split; [apply in_bones, Hb|apply SB].
    + apply in_map_iff in Hp as (m & <- & Hm). exists (PMorphs m). split; [apply in_morphs, Hm|reflexivity].
Qed.

Lemma no_physics e ps : @read_mqx T N e = Some ps -> forall f, ~ In (PPhysics f) ps.
Proof.
  unfold read_mqx. destruct (named doc_tag e); [|discriminate]. destruct (optional bone_tag _ _) as [b|]; [|discriminate]. cbn [bind]. destruct (optional morph_tag _ _) as [m|]; [|discriminate].
  cbn [bind]. intros [= <-] f Hf. apply in_app_iff in Hf as [Hf|Hf]; [destruct b|destruct m]; cbn in Hf; try contradiction; destruct Hf as [Hf|[]]; discriminate.
Qed.
End Xml.

(** ** Files *)
Section Chars.
Variable P : ascii -> Prop.
Lemma all_app a b : all_chars P a -> all_chars P b -> all_chars P (a ++ b)%string.
Proof. induction a as [|c a IH]; cbn; [auto|]. intros (H1 & H2) Hb. split; auto. Qed.
Lemma all_sub n s : all_chars P s -> all_chars P (substring 0 n s).
Proof. revert n. induction s as [|c s IH]; intros [|n] H; cbn; auto. destruct H as (H1 & H2). split; [exact H1|]. apply IH, H2. Qed.
End Chars.
Lemma digits_ok (P : ascii -> Prop) u : (forall c, In c (list_ascii_of_string "0123456789") -> P c) -> all_chars P (DecimalString.NilEmpty.string_of_uint u).
Proof. intros H. induction u; cbn; auto; (split; [apply H; cbn; tauto|exact IHu]). Qed.
Definition name_char (c : ascii) : Prop := path_char c /\ c <> "\"%char.
Lemma suffixed_ok nm k : name_ok nm -> name_ok (suffixed nm k).
Proof.
  intros H. unfold suffixed, name_ok. apply all_app; [exact H|]. apply all_app; [cbn; repeat split; discriminate|].
  apply digits_ok. cbn. intros c Hc. repeat (destruct Hc as [<-|Hc]; [repeat split; discriminate|]). contradiction.
Qed.
Lemma free_ok fuel seen nm k r : name_ok nm -> free_suffix fuel seen nm k = Some r -> name_ok r.
Proof. intros H. revert k. induction fuel as [|f IH]; intros k; [discriminate|]. cbn [free_suffix]. destruct (str_mem _ _); [apply IH|]. intros [= <-]. apply suffixed_ok, H. Qed.
Lemma fix_list_names names : forall seen l, Forall name_ok names -> fix_list seen names = Some l -> Forall name_ok l /\ length l = length names.
Proof.
  induction names as [|nm r IH]; intros seen l F E; cbn in E; [injection E as <-; split; [constructor|reflexivity]|]. inversion F; subst.
  destruct (if str_mem nm seen then _ else _) as [nm'|] eqn:En; [|discriminate]. destruct (fix_list (nm' :: seen) r) as [l'|] eqn:El; [|discriminate]. injection E as <-.
  destruct (IH _ _ H2 El) as (A & B). split; [|cbn; now rewrite B]. constructor; [|exact A].
  destruct (str_mem nm seen); [exact (free_ok (S (length seen)) seen nm 2 _ H1 En)|injection En as <-; exact H1].
Qed.

Section Files.
Context {T : Type} {N : Num T} {X : TextNum T}.
Lemma renamed_domain sc (d d' : document T) : text_domain (mkTD None sc d) -> fix_names d = Some d' -> text_domain (mkTD None sc d').
Proof.
  intros (_ & Hm & Ho) E. cbn [tdDoc] in *. unfold fix_names in E. destruct (fix_list [] (map oName (dObjects d))) as [os|] eqn:E1; [|discriminate].
  destruct (fix_list [] (map mtName (dMaterials d))) as [ms|] eqn:E2; [|discriminate]. injection E as <-.
  apply fix_list_names in E1 as (A1 & _); [|apply Forall_map; revert Ho; apply Forall_impl; intros o H; apply H].
  apply fix_list_names in E2 as (A2 & _); [|apply Forall_map; revert Hm; apply Forall_impl; intros o H; apply H].
  split; [intros f; discriminate|]. cbn [tdDoc dMaterials dObjects]. rewrite Forall_forall in A1, A2, Ho, Hm. split; apply Forall_map, Forall_forall; intros (o, n) H; cbn [fst snd].
  - specialize (A2 n (in_combine_r _ _ _ _ H)). specialize (Hm o (in_combine_l _ _ _ _ H)). destruct Hm as (_ & Hm). split; [exact A2|exact Hm].
  - specialize (A1 n (in_combine_r _ _ _ _ H)). specialize (Ho o (in_combine_l _ _ _ _ H)). destruct Ho as (_ & Ho). split; [exact A1|exact Ho].
Qed.
Lemma include_domain sc (d : document T) base (ps : list (plugin T)) : name_ok base -> text_domain (mkTD None sc d) -> text_domain (mkTD (mqx_name base ps) sc d).
Proof.
  intros Hb (_ & H). split; [|exact H]. cbn [tdInclude]. intros f Hf. unfold mqx_name in Hf. destruct ps; [discriminate|]. injection Hf as <-. split.
  - apply all_app; [apply all_sub, Hb|]. cbn. repeat split; discriminate.
  - destruct (stem base); discriminate.
Qed.

Lemma suffix_app a b : has_suffix b (a ++ b)%string = true.
Proof.
  unfold has_suffix. assert (L : String.length (a ++ b) = (String.length a + String.length b)%nat) by (induction a; cbn; congruence).
  rewrite L. replace (String.length a + String.length b - String.length b)%nat with (String.length a) by lia. apply andb_true_iff. split; [apply Nat.leb_le; lia|]. apply String.eqb_eq.
  clear L. induction a as [|c a IH]; [cbn; induction b; cbn; congruence|exact IH].
Qed.
Definition saved_doc (base : string) (d d' : document T) : Prop := if has_suffix ".mqoz" base then d' = d else fix_names d = Some d'.

Lemma read_none os name : read_mqx (@write_mqx T os [] name) = Some [].
Proof. reflexivity. Qed.
Lemma loaded creatable dir base sc (d : document T) ps fs : text_domain (mkTD None sc d) -> name_ok base -> proper ps -> creatable dir base = true ->
  (has_suffix ".mqoz" base = false -> forall f, mqx_name base ps = Some f -> creatable dir f = true /\ f <> base) ->
  exists fs' d' ps', save creatable dir base sc d ps fs = Some fs' /\ saved_doc base d d' /\
    load dir base fs' = Some (kept_doc (mkTD (mqx_name base ps) sc d'), ps') /\
    length ps' = length (filter (fun p => negb (physical p)) ps) /\
    (forall p, In p ps -> physical p = false -> exists p', In p' ps' /\ same_plugin (dObjects d') p p') /\ (forall p', In p' ps' -> exists p, In p ps /\ same_plugin (dObjects d') p p') /\
    forall dd bb, (dd <> dir \/ (bb <> base /\ Some bb <> mqx_name base ps)) -> fs' dd bb = fs dd bb.
Proof.
  intros Hd Hb Hp Hc Hf. unfold save, saved_doc, load. rewrite Hc. cbn [negb]. destruct (has_suffix ".mqoz" base) eqn:Ez.
  - destruct (read_written (dObjects d) ps base Hp) as (ps' & R & R1 & R2 & R3). exists (put fs dir base (FZip ((stem base ++ ".mqo", FText (write_text (mkTD (mqx_name base ps) sc d)))%string ::
      match mqx_name base ps with Some f => [(f, FXml (write_mqx (dObjects d) ps base))] | None => [] end))), d, ps'.
    split; [reflexivity|]. split; [reflexivity|]. split; [|repeat (split; [assumption|])].
    + unfold put at 1. rewrite !String.eqb_refl. cbn [andb]. unfold entry at 1. cbn [find fst]. rewrite suffix_app. cbn [option_map snd parse_file].
      rewrite parse_write_text by (apply include_domain; assumption). unfold read_plugins. cbn [tdInclude kept_doc]. destruct ps as [|p ps]; [cbn; rewrite read_none in R; congruence|]. cbn [mqx_name].
      unfold entry. cbn [find fst]. assert (NE : String.eqb (stem base ++ ".mqx") (stem base ++ ".mqo") = false).
      { apply String.eqb_neq. intros E. induction (stem base) as [|c s IH]; [discriminate|]. injection E as E. exact (IH E). }
      rewrite NE, String.eqb_refl. cbn [option_map snd]. rewrite R. reflexivity.
    + intros dd bb H. unfold put. destruct (String.eqb_spec dd dir) as [->|]; [|reflexivity]. destruct (String.eqb_spec bb base) as [->|]; [|reflexivity]. destruct H as [H|[H _]]; now contradiction H.
  - destruct (fix_names_ok d) as (d' & Ed & _). rewrite Ed. destruct (read_written (dObjects d') ps base Hp) as (ps' & R & R1 & R2 & R3).
    pose proof (renamed_domain sc d d' Hd Ed) as Hd'. eexists. exists d', ps'. split; [reflexivity|]. split; [reflexivity|]. split; [|repeat (split; [assumption|])].
    + destruct ps as [|p ps].
      * cbn [mqx_name]. unfold put. rewrite !String.eqb_refl. cbn [andb parse_file]. rewrite parse_write_text by exact Hd'. unfold read_plugins. cbn [tdInclude kept_doc]. rewrite read_none in R. congruence.
      * cbn [mqx_name]. destruct (Hf eq_refl _ eq_refl) as (Hc' & Hne). rewrite Hc'. unfold put. rewrite !String.eqb_refl. cbn [andb].
        rewrite (proj2 (String.eqb_neq base _)) by congruence. cbn [parse_file]. rewrite parse_write_text by (exact (include_domain sc d' base (p :: ps) Hb Hd')).
        unfold read_plugins. cbn [tdInclude kept_doc]. rewrite String.eqb_refl. rewrite R. reflexivity.
    + intros dd bb H. destruct ps as [|p ps]; cbn [mqx_name] in *.
      * unfold put. destruct (String.eqb_spec dd dir) as [->|]; [|reflexivity]. destruct (String.eqb_spec bb base) as [->|]; [|reflexivity]. destruct H as [H|[H _]]; now contradiction H.
      * destruct (creatable dir (stem base ++ ".mqx")%string); unfold put; (destruct (String.eqb_spec dd dir) as [->|]; [|reflexivity]); destruct H as [H|[H H']]; try now contradiction H.
        -- destruct (String.eqb_spec bb (stem base ++ ".mqx")) as [->|]; [now contradiction H'|]. now rewrite (proj2 (String.eqb_neq bb base) H).
        -- now rewrite (proj2 (String.eqb_neq bb base) H).
Qed.

Lemma loaded_no_physics dir base (fs : files T) td ps : load dir base fs = Some (td, ps) -> forall f, ~ In (PPhysics f) ps.
Proof.
  assert (A : forall open td0, forall f, ~ In (PPhysics f) (@read_plugins T N open td0)).
  { intros open td0 f. unfold read_plugins. destruct (tdInclude td0); [|intros []]. destruct (open s) as [[|e|]|]; try (intros []). destruct (read_mqx e) as [q|] eqn:E; [|intros []]. exact (no_physics e q E f). }
  assert (B : forall c open, parse_file c open = Some (td, ps) -> forall f, ~ In (PPhysics f) ps).
  { intros c open H f. unfold parse_file in H. destruct c as [[s| |]|]; try discriminate. destruct (parse_text s); [|discriminate]. injection H as _ <-. apply A. }
  unfold load. destruct (has_suffix ".mqoz" base); [|apply B]. destruct (fs dir base) as [[| |l]|]; try discriminate. apply B.
Qed.
End Files.
Lemma ext_mqx s : ext (s ++ ".mqx")%string = ".mqx".
Proof. induction s as [|c s IH]; [reflexivity|]. cbn [append ext]. rewrite IH. reflexivity. Qed.
Lemma other_name base : is_mqo (lower (ext base)) = true -> (stem base ++ ".mqx")%string <> base.
Proof. intros H E. rewrite <- E, ext_mqx in H. discriminate. Qed.
