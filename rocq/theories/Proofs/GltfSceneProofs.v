(** Proofs about imported glTF scenes. *)
From Coq Require Import String List ZArith Bool Lia.
From Verif.Model Require Import Num Vec Matrix Mqo MqoDoc Mmd2Mqo Gltf Gltf2Mqo GltfScene.
From Verif Require Import Spec.Gltf2MqoSpec Spec.GltfSceneSpec Proofs.Mqo2MmdProofs Proofs.GltfDoc Proofs.Gltf2MqoProofs.
Import ListNotations.
Local Open Scope Z_scope.
Local Open Scope list_scope.

Section Proofs.
Context {T : Type} {N : Num T}.
Variables (facet half : T).

Lemma forall2_in_l {A B} (R : A -> B -> Prop) l r : Forall2 R l r -> forall x, In x l -> exists y, In y r /\ R x y.
Proof. induction 1 as [|a b l r H F IH]; intros x Hx; [destruct Hx|]. destruct Hx as [<-|Hx]; [exists b; split; [left; reflexivity|assumption]|]. destruct (IH x Hx) as (y & Hy & Hr). exists y. split; [right|]; assumption. Qed.
Lemma forall2_in_r {A B} (R : A -> B -> Prop) l r : Forall2 R l r -> forall y, In y r -> exists x, In x l /\ R x y.
Proof. induction 1 as [|a b l r H F IH]; intros y Hy; [destruct Hy|]. destruct Hy as [<-|Hy]; [exists a; split; [left; reflexivity|assumption]|]. destruct (IH y Hy) as (x & Hx & Hr). exists x. split; [right|]; assumption. Qed.

Lemma import_scene_spec (d : xdoc T) doc : import_scene facet half d = Some doc ->
  Forall2 (fun m r => import_xmat half d m = Some r) (xdMats d) (dMaterials doc) /\
  Forall2 (fun i o => exists m, nth_error (xdMeshes d) i = Some m /\ import_xmesh facet m = Some o)
          (flat_map (fun n => match xnMesh n with Some i => [i] | None => [] end) (xdNodes d)) (dObjects doc).
Proof.
  unfold import_scene. destruct (all_some _ (xdMats d)) as [ms|] eqn:Em; [|discriminate].
  destruct (all_some _ (flat_map _ _)) as [os|] eqn:Eo; [|discriminate]. cbn [option_map]. intros [= <-]. cbn [dMaterials dObjects].
  apply all_some_spec in Em. apply all_some_spec in Eo. split; [exact Em|].
  revert Eo. generalize (flat_map (fun n : xnode T => match xnMesh n with Some i => [i] | None => [] end) (xdNodes d)). intros l F.
  induction F as [|i o l os' H F IH]; constructor; [|exact IH]. destruct (nth_error (xdMeshes d) i) as [m|]; [|discriminate]. eauto.
Qed.

Lemma in_mesh_nodes (nodes : list (xnode T)) j : In j (flat_map (fun n => match xnMesh n with Some i => [i] | None => [] end) nodes) <->
  exists i n, nth_error nodes i = Some n /\ xnMesh n = Some j.
Proof.
  rewrite in_flat_map. split.
  - intros (n & Hn & Hj). apply In_nth_error in Hn as (i & Hi). exists i, n. split; [exact Hi|]. destruct (xnMesh n); [|destruct Hj]. destruct Hj as [->|[]]. reflexivity.
  - intros (i & n & Hi & Hm). exists n. split; [eapply nth_error_In; exact Hi|]. rewrite Hm. left. reflexivity.
Qed.

(** The vertices of a simple mesh are where the shared list has them. *)
Lemma simple_corner (m : xmesh T) o pos p is_ : import_xmesh facet m = Some o ->
  (forall p, In p (xmPrims m) -> xpMode p = 4 /\ gpPos (xpPrim p) = Some pos /\ gpMaterial (xpPrim p) <> None /\
     exists is_, gpIndices (xpPrim p) = Some is_ /\ Forall (fun i => 0 <= i < Z.of_nat (length pos)) is_) ->
  In p (xmPrims m) -> gpIndices (xpPrim p) = Some is_ -> forall k i, nth_error is_ k = Some i ->
  exists q, zidx (oVerts o) i = Some q /\ nth_error pos (Z.to_nat i) = Some q /\ 0 <= i.
Proof.
  intros H HS Hp Hi k i Hk. unfold import_xmesh in H. destruct (import_mesh_spec facet _ _ H) as (_ & _ & Hv & _). cbn [gmPrims] in Hv.
  destruct (HS p Hp) as (_ & Ep & _ & is' & Hi' & F). rewrite Hi in Hi'. injection Hi' as <-.
  rewrite Forall_forall in F. pose proof (F i (nth_error_In _ _ Hk)) as B.
  destruct (shared_positions (map xpPrim (xmPrims m)) pos (xpPrim p)) as (rest & Hr).
  { apply Forall_forall. intros x Hx _. apply in_map_iff in Hx as (p' & <- & Hp'). apply (HS p' Hp'). }
  { apply in_map. exact Hp. } { congruence. }
  assert (L : (Z.to_nat i < length pos)%nat) by lia.
  destruct (nth_error pos (Z.to_nat i)) as [q|] eqn:E; [|apply nth_error_None in E; lia]. exists q. split; [|split; [reflexivity|lia]].
  rewrite Hv, Hr. unfold zidx. destruct (i <? 0) eqn:E0; [lia|]. rewrite nth_error_app1 by exact L. exact E.
Qed.

Theorem scene_looks (d : xdoc T) doc : import_scene facet half d = Some doc ->
  Forall simple_mesh (xdMeshes d) -> nodes_in_place d -> same_look d (dObjects doc).
Proof.
  intros H HS HN. destruct (import_scene_spec d doc H) as [_ F]. rewrite Forall_forall in HS. split.
  - intros mat a b c (i & n & f & j & m & p & k & x & y & z & qa & qb & qc & Hpl & Hn & Hj & Hm & Hp & Hmat & Hc & Ha & Hb & Hcc & -> & -> & ->).
    destruct (HN i n j Hn Hj) as [_ Id]. rewrite !(Id f Hpl). clear Id.
    destruct (forall2_in_l _ _ _ F j) as (o & Ho & m' & Hm' & Hi). { apply in_mesh_nodes. eauto. }
    rewrite Hm in Hm'. injection Hm' as <-.
    destruct (HS m (nth_error_In _ _ Hm)) as (pos & HS'). destruct (HS' p Hp) as (M4 & Ep & Mt & is_ & Eis & _).
    rewrite M4 in Hc. inversion Hc; subst x y z; try discriminate. subst.
    destruct (gpMaterial (xpPrim p)) as [mt|] eqn:Emt; [|congruence]. exists mt. split; [reflexivity|].
    unfold draws_vertex in Ha, Hb, Hcc. rewrite Ep, Eis in Ha, Hb, Hcc.
    destruct Ha as (? & [= <-] & ia & Ia & Pa & Qa), Hb as (? & [= <-] & ib & Ib & Pb & Qb), Hcc as (? & [= <-] & ic & Ic & Pc & Qc).
    unfold import_xmesh in Hi. destruct (import_mesh_spec facet _ _ Hi) as (_ & _ & _ & groups & Hf & FG). cbn [gmPrims] in FG.
    destruct (forall2_in_l _ _ _ FG (xpPrim p)) as (gs & Hgs & IP). { apply in_map. exact Hp. }
    unfold imports_prim in IP. rewrite Eis, Emt in IP. destruct IP as [_ IP].
    destruct (IP k ia ib ic) as (fc & Hk & Hfv & Hfm & _). { split; [exact Ia|]. split; assumption. }
    exists o, fc, ia, ib, ic. split; [exact Ho|]. split; [rewrite Hf; apply in_concat; exists gs; split; [exact Hgs|eapply nth_error_In; exact Hk]|].
    split; [exact Hfm|]. split; [exact Hfv|].
    destruct (simple_corner m o pos p is_ Hi HS' Hp Eis _ _ Ia) as (q1 & Z1 & N1 & _).
    destruct (simple_corner m o pos p is_ Hi HS' Hp Eis _ _ Ib) as (q2 & Z2 & N2 & _).
    destruct (simple_corner m o pos p is_ Hi HS' Hp Eis _ _ Ic) as (q3 & Z3 & N3 & _).
    rewrite Z1, Z2, Z3. repeat split; congruence.
  - intros k a b c (o & fc & x & y & z & Ho & Hf & Hm & Hv & Ha & Hb & Hc).
    destruct (forall2_in_r _ _ _ F o Ho) as (j & Hj & m & Hmesh & Hi). apply in_mesh_nodes in Hj as (i & n & Hn & Hj).
    destruct (HN i n j Hn Hj) as [(f & Hpl) Id]. specialize (Id f Hpl).
    destruct (HS m (nth_error_In _ _ Hmesh)) as (pos & HS'). pose proof Hi as Hi0. unfold import_xmesh in Hi.
    destruct (import_mesh_spec facet _ _ Hi) as (_ & _ & _ & groups & Hfs & FG). cbn [gmPrims] in FG.
    rewrite Hfs in Hf. apply in_concat in Hf as (gs & Hgs & Hf). destruct (forall2_in_r _ _ _ FG gs Hgs) as (p0 & Hp & IP).
    apply in_map_iff in Hp as (p & <- & Hp). destruct (HS' p Hp) as (M4 & Ep & Mt & is_ & Eis & _).
    unfold imports_prim in IP. rewrite Eis in IP. destruct IP as [L IP].
    apply In_nth_error in Hf as (t & Ht).
    assert (Lt : (t < length is_ / 3)%nat). { rewrite <- L. apply nth_error_Some. congruence. }
    assert (Bd : (3 * t + 2 < length is_)%nat). { pose proof (Nat.mul_div_le (length is_) 3). lia. }
    assert (G : forall u, (u < length is_)%nat -> exists v, nth_error is_ u = Some v). { intros u Hu. destruct (nth_error is_ u) eqn:E; [eauto|]. apply nth_error_None in E. lia. }
    destruct (G (3 * t)%nat ltac:(lia)) as (ia & Ia). destruct (G (3 * t + 1)%nat ltac:(lia)) as (ib & Ib). destruct (G (3 * t + 2)%nat ltac:(lia)) as (ic & Ic).
    destruct (IP t ia ib ic) as (f' & Hf' & Hfv & Hfm & _). { split; [exact Ia|]. split; assumption. }
    rewrite Ht in Hf'. injection Hf' as <-. rewrite Hv in Hfv. injection Hfv as -> -> ->.
    destruct (simple_corner m o pos p is_ Hi0 HS' Hp Eis _ _ Ia) as (q1 & Z1 & N1 & P1).
    destruct (simple_corner m o pos p is_ Hi0 HS' Hp Eis _ _ Ib) as (q2 & Z2 & N2 & P2).
    destruct (simple_corner m o pos p is_ Hi0 HS' Hp Eis _ _ Ic) as (q3 & Z3 & N3 & P3).
    rewrite Z1 in Ha. rewrite Z2 in Hb. rewrite Z3 in Hc. injection Ha as ->. injection Hb as ->. injection Hc as ->.
    exists i, n, f, j, m, p, t, (3 * t)%nat, (3 * t + 1)%nat, (3 * t + 2)%nat, a, b, c.
    split; [exact Hpl|]. split; [exact Hn|]. split; [exact Hj|]. split; [exact Hmesh|]. split; [exact Hp|].
    split. { destruct (gpMaterial (xpPrim p)) as [mt|]; [|congruence]. congruence. }
    split; [rewrite M4; constructor|]. rewrite !Id. unfold draws_vertex. rewrite Ep, Eis.
    split; [exists pos; split; [reflexivity|eauto]|]. split; [exists pos; split; [reflexivity|eauto]|]. split; [exists pos; split; [reflexivity|eauto]|]. auto.
Qed.

Theorem scene_textures (d : xdoc T) doc : import_scene facet half d = Some doc ->
  Forall2 (fun m r => mtName r = gtName (xtMat m) /\
    (forall uri, shows_image d m uri -> mtTexture r = uri) /\
    ((forall uri, ~ shows_image d m uri) -> mtTexture r = ""%string /\ (xtPbr m = true -> xtTexture m = None))) (xdMats d) (dMaterials doc).
Proof.
  intros H. destruct (import_scene_spec d doc H) as [F _]. eapply forall2_weak; [|exact F]. cbn beta. intros m r Hr.
  unfold import_xmat in Hr. destruct (material_texture d m) as [t|] eqn:E; [|discriminate]. cbn [option_map] in Hr. injection Hr as <-.
  split; [reflexivity|]. cbn [mtTexture with_texture]. unfold material_texture in E. split.
  - intros uri (i & s & P & X & Y & Z). rewrite P, X, Y, Z in E. congruence.
  - intros Hno. destruct (xtPbr m) eqn:P; [|injection E as <-; split; [reflexivity|discriminate]].
    destruct (xtTexture m) as [i|] eqn:X; [|injection E as <-; auto].
    destruct (nth_error (xdTextures d) i) as [[s|]|] eqn:Y; try discriminate. exfalso. apply (Hno t). exists i, s. auto.
Qed.

Lemma all_some_none {A B} (g : A -> option B) l x : In x l -> g x = None -> all_some g l = None.
Proof. induction l as [|y l IH]; [intros []|]. intros [->|Hx] E; cbn [all_some]; [rewrite E; reflexivity|]. destruct (g y); [|reflexivity]. rewrite (IH Hx E). reflexivity. Qed.
(** Exactly which textures stop the import. *)
Theorem texture_crash (d : xdoc T) m : In m (xdMats d) -> xtPbr m = true -> xtTexture m <> None -> (forall uri, ~ shows_image d m uri) ->
  import_scene facet half d = None.
Proof.
  intros Hm P X Hno. unfold import_scene. rewrite (all_some_none _ _ m Hm); [reflexivity|]. unfold import_xmat, material_texture. rewrite P.
  destruct (xtTexture m) as [i|] eqn:Xi; [|congruence]. destruct (nth_error (xdTextures d) i) as [[s|]|] eqn:Y; try reflexivity.
  destruct (nth_error (xdImages d) s) as [u|] eqn:Z; [|reflexivity]. exfalso. apply (Hno u). exists i, s. auto.
Qed.
End Proofs.
