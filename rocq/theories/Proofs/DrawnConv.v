(** More about the objects, weights and morph sets a PMX model becomes. *)
From Coq Require Import String List ZArith Bool Lia Permutation.
From Verif.Model Require Import Num Vec Matrix Mqo MqoDoc Mmd2Mqo Gltf.
From Verif Require Import Spec.MmdConvSpec Spec.GltfSpec Spec.DrawnSpec Proofs.MqoObjProofs Proofs.MqoDocProofs Proofs.Mmd2MqoGroups Proofs.Mmd2MqoFaces Proofs.Mmd2MqoProofs.
Import ListNotations.
Local Open Scope Z_scope.
Local Open Scope list_scope.

Section Main.
Context {T : Type} {N : Num T}.
Variables (hundred facet : T) (shuffle : vmap -> vmap).
Hypothesis shuffle_perm : forall m, Permutation (shuffle m) m.

Definition made (o : object T) : Prop :=
  oVertexByUID o = [] /\ well_indexed o /\
  (oDepth o = 0 /\ oVisible o = true /\ oShading o = 1 /\ mesh_name (oName o) \/ oDepth o = 1 /\ oVisible o = false).

Lemma indexed_faces p f2m keys vs fs faces m : State (pVerts p) keys (vs, m) -> Forall2 (good_face p f2m keys) fs faces ->
  Forall (fun f : face T => Forall (fun v => 0 <= v < Z.of_nat (length vs)) (fVerts f) /\ length (fUVs f) = length (fVerts f)) fs.
Proof.
  intros S F. pose proof (state_length _ _ _ S) as L. cbn [fst] in L. induction F as [|f fi fs faces (_ & A & _ & C & _) F IH]; constructor; [|exact IH]. split.
  - rewrite L. clear - A. revert A. generalize (nth fi (pFaces p) []). induction (fVerts f) as [|k ks IH]; intros [|v l] A; try discriminate; constructor.
    + cbn [map] in A. injection A as A1 _. apply zidx_bound in A1. exact A1.
    + cbn [map] in A. injection A as _ A2. apply (IH l A2).
  - apply (f_equal (@length _)) in A. apply (f_equal (@length _)) in C. rewrite !map_length in A, C. congruence.
Qed.
Lemma made_base p f2m keys vs fs faces m name : State (pVerts p) keys (vs, m) -> Forall2 (good_face p f2m keys) fs faces -> mesh_name name -> made (new_object facet name vs fs).
Proof.
  intros S F M. split; [reflexivity|]. split; [|left; repeat split; exact M]. unfold well_indexed. cbn [oFaces oVerts new_object].
  eapply Forall_impl; [|eapply indexed_faces; eassumption]. cbn. intros f (A & B). auto.
Qed.
Lemma move_vertices_length m l : forall (vs vs' : list (vec3 T)), move_vertices m vs l = Some vs' -> length vs' = length vs.
Proof.
  induction l as [|e l IH]; intros vs vs' E; cbn in E; [injection E as <-; reflexivity|]. unfold move_vertex in E. destruct (zidx vs (map_at m (fst e))); [|discriminate].
  apply IH in E. rewrite E. apply list_set_length.
Qed.
Lemma move_corners_length k d ks : forall us : list (vec2 T), length (move_corners k d ks us) = length us.
Proof. induction ks as [|x ks IH]; intros [|u us]; try reflexivity. cbn [move_corners length]. rewrite IH. reflexivity. Qed.
Lemma move_uv_shape (P : list Z -> nat -> Prop) m l : forall fs : list (face T), Forall (fun f => P (fVerts f) (length (fUVs f))) fs ->
  Forall (fun f => P (fVerts f) (length (fUVs f))) (fold_left (move_uv m) l fs).
Proof.
  induction l as [|e l IH]; intros fs H; [exact H|]. cbn [fold_left]. apply IH. unfold move_uv. destruct (fst e <? 0); [exact H|]. rewrite Forall_map.
  eapply Forall_impl; [|exact H]. cbn. intros f Hf. rewrite move_corners_length. exact Hf.
Qed.
Lemma made_target p f2m keys vs fs faces m m' mo t : State (pVerts p) keys (vs, m') -> Forall2 (good_face p f2m keys) fs faces -> morph_object facet m vs fs mo = Some t ->
  made t /\ oName t = phName mo.
Proof.
  intros S F E. unfold morph_object in E. destruct (move_vertices m vs (phVerts mo)) as [vs'|] eqn:Ev; [|discriminate]. injection E as <-.
  split; [|reflexivity]. split; [reflexivity|]. split; [|right; split; reflexivity]. unfold well_indexed. cbn [oFaces oVerts target_object].
  rewrite (move_vertices_length _ _ _ _ Ev). pose proof (indexed_faces _ _ _ _ _ _ _ S F) as I.
  assert (X : Forall (fun f : face T => Forall (fun v => 0 <= v < Z.of_nat (length vs)) (fVerts f) /\ length (fUVs f) = length (fVerts f)) (fold_left (move_uv m) (phUVs mo) (map clone_face fs))).
  { apply (move_uv_shape (fun a n => Forall (fun v => 0 <= v < Z.of_nat (length vs)) a /\ n = length a)). rewrite Forall_map. exact I. }
  eapply Forall_impl; [|exact X]. cbn. intros f (A & B). auto.
Qed.

Lemma made_mats p base mats : forall idx vpos os (bw : bone_weights (T := T)) f2m os' bw' f2m', Forall made os ->
  mat_loop hundred facet shuffle p base idx vpos mats os bw f2m = Some (os', bw', f2m') -> Forall made os'.
Proof.
  induction mats as [|mat r IH]; intros idx vpos os bw f2m os' bw' f2m' H E; cbn [mat_loop] in E; [injection E as <- <- <-; exact H|].
  destruct (set_range f2m vpos _ idx) as [f2m1|]; [|discriminate]. cbv zeta in E.
  destruct (conv_faces p f2m1 _ ([], [])) as [[fs [vs m]]|] eqn:E2; [|discriminate].
  destruct (_ && _); [eapply IH; eassumption|]. destruct (set_weights _ _ _ _ _ bw) as [bw1|]; [|discriminate].
  eapply IH; [|exact E]. apply Forall_app. split; [exact H|]. constructor; [|constructor].
  destruct (conv_faces_spec _ _ _ _ _ _ _ (state_nil (pVerts p)) E2) as (keys & S & F & _). eapply made_base; [exact S|exact F|]. eexists. left. reflexivity.
Qed.
Definition sets_ok (p : pmodel T) (sets : list target_list) : Prop := Forall (fun s => Forall (fun t => In t (map (fun m => phName m) (pMorphs p))) (tlTargets s)) sets.
Lemma made_groups p f2m ms : forall fss mg os bw sets os' bw' sets', Forall made os -> sets_ok p sets ->
  group_loop hundred facet shuffle p f2m mg ms fss os bw sets = Some (os', bw', sets') -> Forall made os' /\ sets_ok p sets'.
Proof.
  induction ms as [|l ms IH]; intros [|faces fss] mg os bw sets os' bw' sets' H HS E; cbn [group_loop] in E; try (injection E as <- <- <-; auto).
  destruct (conv_faces p f2m faces ([], [])) as [[fs [vs m]]|] eqn:E1; [|discriminate].
  destruct (set_weights _ _ _ _ _ bw) as [bw1|]; [|discriminate]. destruct (all_morphs facet p m vs fs l) as [ts|] eqn:E3; [|discriminate].
  destruct (conv_faces_spec _ _ _ _ _ _ _ (state_nil (pVerts p)) E1) as (keys & S & F & _). cbn [app] in S, F. apply all_morphs_spec in E3.
  assert (X : Forall (fun t => made t /\ In (oName t) (map (fun m => phName m) (pMorphs p))) ts).
  { clear - E3 S F. induction E3 as [|mi t l ts (mo & A & B) E3 IH]; constructor; [|exact IH]. destruct (made_target _ _ _ _ _ _ _ _ _ _ S F B) as (C & ->). split; [exact C|].
    apply in_map_iff. exists mo. split; [reflexivity|]. eapply nth_error_In. exact A. }
  eapply IH; [| |exact E].
  - apply Forall_app. split; [exact H|]. constructor; [eapply made_base; [exact S|exact F|]; eexists; right; reflexivity|]. eapply Forall_impl; [|exact X]. cbn. tauto.
  - apply Forall_app. split; [exact HS|]. constructor; [|constructor]. cbn. rewrite Forall_map. eapply Forall_impl; [|exact X]. cbn. tauto.
Qed.
Lemma fix_ids_made os : forall i, Forall made os -> Forall made (fix_ids i os).
Proof.
  induction os as [|o os IH]; intros i H; [constructor|]. inversion H; subst. cbn [fix_ids]. constructor; [|apply IH; assumption].
  destruct (oUID o =? 0); assumption.
Qed.
Lemma convert_made p os bw sets : convert hundred facet shuffle p = Some (os, bw, sets) -> Forall made os /\ sets_ok p sets.
Proof.
  intros E. unfold convert in E. destruct (gen_morph_group p) as [[mg2m mg2fs]|]; [|discriminate].
  destruct (mat_loop _ _ _ _ _ _ _ _ _ _ _) as [[[os1 bw1] f2m]|] eqn:E1; [|discriminate].
  destruct (group_loop _ _ _ _ _ _ _ _ _ _ _) as [[[os2 bw2] sets2]|] eqn:E2; [|discriminate]. injection E as <- <- <-.
  apply made_mats in E1; [|constructor]. apply made_groups in E2 as (A & B); [|exact E1|constructor]. split; [apply fix_ids_made; exact A|exact B].
Qed.

(** *** One list of weights per bone and object *)

Definition one_list (ws : list (Z * list (Z * T))) : Prop := NoDup (map fst ws).
Lemma set_vertex_one ws obj vid w : one_list ws -> one_list (set_vertex_weight ws obj vid w) /\ (forall o, In o (map fst (set_vertex_weight ws obj vid w)) -> o = obj \/ In o (map fst ws)).
Proof.
  unfold one_list. induction ws as [|[o l] r IH]; intros H; cbn [set_vertex_weight].
  - cbn. split; [constructor; [intros []|constructor]|]. intros x [<-|[]]. auto.
  - inversion H; subst. destruct (Z.eqb_spec o obj) as [->|Ne].
    + cbn [map fst] in *. split; [exact H|]. intros x Hx. right. exact Hx.
    + destruct (IH ltac:(assumption)) as (A & B). cbn [map fst] in *. split.
      * constructor; [|exact A]. intros C. apply B in C as [->|C]; [congruence|contradiction].
      * intros x [<-|Hx]; [right; left; reflexivity|]. apply B in Hx as [->|Hx]; [left; reflexivity|right; right; exact Hx].
Qed.
Lemma list_set_forall {A} (P : A -> Prop) (l : list A) : forall i x, Forall P l -> P x -> Forall P (list_set l i x).
Proof.
  intros i x H Hx. apply Forall_forall. intros y Hy. apply In_nth_error in Hy as (j & Hj).
  destruct (Nat.lt_ge_cases i (length l)) as [L|L].
  - rewrite list_set_nth in Hj by exact L. destruct (Nat.eqb j i); [injection Hj as <-; exact Hx|]. rewrite Forall_forall in H. apply H. eapply nth_error_In. exact Hj.
  - unfold list_set in Hj. rewrite skipn_all2, firstn_all2, app_nil_r in Hj by lia. rewrite Forall_forall in H. apply H. eapply nth_error_In. exact Hj.
Qed.
Lemma store_one obj vid c : forall (bw bw' : bone_weights (T := T)), Forall one_list bw -> store_weights bw c obj vid = Some bw' -> Forall one_list bw'.
Proof.
  induction c as [|[b w] c IH]; intros bw bw' H E; cbn [store_weights] in E; [injection E as <-; exact H|]. destruct (zidx bw b) as [ws|] eqn:Eb; [|discriminate].
  eapply IH; [|exact E]. apply list_set_forall; [exact H|]. apply set_vertex_one. rewrite Forall_forall in H. apply H. apply zidx_Some in Eb as (_ & Eb). eapply nth_error_In. exact Eb.
Qed.
Lemma set_one more vs entries obj : forall (bw bw' : bone_weights (T := T)), Forall one_list bw -> set_weights more hundred vs entries obj bw = Some bw' -> Forall one_list bw'.
Proof.
  induction entries as [|[pv mv] r IH]; intros bw bw' H E; cbn [set_weights] in E; [injection E as <-; exact H|]. destruct (zidx vs pv) as [v|]; [|discriminate].
  destruct (vertex_weights _ _ _ _ _) as [c|]; [|discriminate]. destruct (store_weights bw c obj _) as [bw1|] eqn:E1; [|discriminate]. eapply IH; [|exact E]. eapply store_one; eassumption.
Qed.
Lemma mats_one p base mats : forall idx vpos os (bw : bone_weights (T := T)) f2m os' bw' f2m', Forall one_list bw ->
  mat_loop hundred facet shuffle p base idx vpos mats os bw f2m = Some (os', bw', f2m') -> Forall one_list bw'.
Proof.
  induction mats as [|mat r IH]; intros idx vpos os bw f2m os' bw' f2m' H E; cbn [mat_loop] in E; [injection E as <- <- <-; exact H|].
  destruct (set_range f2m vpos _ idx) as [f2m1|]; [|discriminate]. cbv zeta in E.
  destruct (conv_faces p f2m1 _ ([], [])) as [[fs [vs m]]|] eqn:E2; [|discriminate].
  destruct (_ && _); [eapply IH; eassumption|]. destruct (set_weights _ _ _ _ _ bw) as [bw1|] eqn:E3; [|discriminate].
  eapply IH; [|exact E]. eapply set_one; eassumption.
Qed.
Lemma groups_one p f2m ms : forall fss mg os bw sets os' bw' sets', Forall one_list bw ->
  group_loop hundred facet shuffle p f2m mg ms fss os bw sets = Some (os', bw', sets') -> Forall one_list bw'.
Proof.
  induction ms as [|l ms IH]; intros [|faces fss] mg os bw sets os' bw' sets' H E; cbn [group_loop] in E; try (injection E as <- <- <-; auto).
  destruct (conv_faces p f2m faces ([], [])) as [[fs [vs m]]|]; [|discriminate].
  destruct (set_weights _ _ _ _ _ bw) as [bw1|] eqn:E3; [|discriminate]. destruct (all_morphs facet p m vs fs l) as [ts|]; [|discriminate].
  eapply IH; [|exact E]. eapply set_one; eassumption.
Qed.
Lemma convert_one p os bw sets : convert hundred facet shuffle p = Some (os, bw, sets) -> Forall one_list bw.
Proof.
  intros E. unfold convert in E. destruct (gen_morph_group p) as [[mg2m mg2fs]|]; [|discriminate].
  destruct (mat_loop _ _ _ _ _ _ _ _ _ _ _) as [[[os1 bw1] f2m]|] eqn:E1; [|discriminate].
  destruct (group_loop _ _ _ _ _ _ _ _ _ _ _) as [[[os2 bw2] sets2]|] eqn:E2; [|discriminate]. injection E as <- <- <-.
  eapply groups_one; [|exact E2]. eapply mats_one; [|exact E1]. apply Forall_forall. intros x Hx. apply repeat_spec in Hx. subst x. constructor.
Qed.

(** *** Objects with what they show *)

Definition Held (p : pmodel T) (bw : bone_weights (T := T)) (o : object T) (i : info) : Prop :=
  made o /\ oUID o <> 0 /\
  match i with
  | IMesh k src fsrc => oVisible o = true /\ shows p o src fsrc /\ map (resolve o) (oFaces o) = map (source p) fsrc
  | ITarget => oVisible o = false
  end /\
  forall b ws, zidx bw b = Some ws -> forall vid, stored ws (oUID o) vid = exp_w hundred p i b vid.

Lemma convert_held p os bw sets : convert hundred facet shuffle p = Some (os, bw, sets) -> covers p ->
  length bw = pNBones p /\ exists is, Forall2 (Held p bw) os is /\ Permutation (flat_map info_faces is) (seq 0 (length (pFaces p))).
Proof.
  intros E C. pose proof (convert_made p os bw sets E) as (M & _).
  destruct (convert_spec hundred facet shuffle shuffle_perm _ _ _ _ E C) as (_ & _ & _ & os0 & is & _ & _ & -> & O & (L & W) & P & _).
  split; [exact L|]. exists is. split; [|exact P]. clear P E.
  assert (G : forall k osr isr, Forall2 (Oinv p) osr isr -> Forall made (fix_ids (Z.of_nat k) osr) -> (forall j i, nth_error isr j = Some i -> nth_error is (k + j) = Some i) ->
     Forall2 (Held p bw) (fix_ids (Z.of_nat k) osr) isr).
  { clear O M os0. intros k osr isr O. revert k. induction O as [|o i osr isr (U & I) O IH]; intros k M H; [constructor|]. cbn [fix_ids] in *. rewrite U in *. cbn [Z.eqb] in *.
    inversion M as [|? ? M1 M2]; subst. constructor.
    - split; [exact M1|]. split; [cbn; lia|]. split.
      + destruct M1 as (_ & _ & M1). destruct i as [f src fsrc|].
        * destruct I as (I1 & I2 & I3 & _). split; [|split; [exact I2|exact I3]]. cbn in M1 |- *. unfold mesh in I1. apply Z.eqb_eq in I1. destruct M1 as [M1|M1]; [tauto|lia].
        * unfold mesh in I. apply Z.eqb_neq in I. cbn in M1 |- *. tauto.
      + intros b ws Z vid. rewrite (W b ws Z). cbn [oUID set_uid]. replace (Z.of_nat k + 1 - 1) with (Z.of_nat k) by lia.
        specialize (H 0%nat i eq_refl). rewrite Nat.add_0_r in H. replace (zidx is (Z.of_nat k)) with (Some i); [reflexivity|]. symmetry. apply zidx_Some. rewrite Nat2Z.id. split; [lia|exact H].
    - replace (Z.of_nat k + 1) with (Z.of_nat (S k)) in * by lia. apply IH; [exact M2|]. intros j i' Hj. specialize (H (S j) i' Hj). rewrite Nat.add_succ_r in H. exact H. }
  apply (G 0%nat os0 is O M). intros j i Hj. exact Hj.
Qed.
End Main.
