(** The glTF importer, and the way from MQO to glTF and back. *)
From Coq Require Import String List ZArith Bool Lia Permutation.
From Verif.Model Require Import Num Vec Matrix Mqo MqoDoc Mmd2Mqo Normals Mqo2Mmd Gltf Mqo2Gltf Gltf2Mqo.
From Verif Require Import Spec.MqoSpec Spec.NormalsSpec Spec.Mqo2MmdSpec Spec.GltfSpec Spec.Gltf2MqoSpec.
From Verif Require Import Proofs.Mqo2MmdProofs Proofs.Mqo2MmdTop Proofs.Mmd2MqoProofs Proofs.MqoObjProofs Proofs.MqoDocProofs Proofs.Mmd2MqoFaces
  Proofs.GltfGraph Proofs.GltfMesh Proofs.GltfTop Proofs.GltfDoc Proofs.GltfTotal Proofs.GltfProps.
Import ListNotations.
Local Open Scope Z_scope.
Local Open Scope list_scope.

Lemma triples_nth : forall n l, (length l <= n)%nat -> length (triples l) = (length l / 3)%nat /\
  forall k a b c, triangle_at l k a b c <-> nth_error (triples l) k = Some (a, b, c).
Proof.
  assert (NN : forall A j, nth_error (@nil A) j = None) by (intros A [|j]; reflexivity).
  induction n as [|n IH]; intros l Hl.
  - destruct l; [|cbn in Hl; lia]. split; [reflexivity|]. intros k a b c. unfold triangle_at. cbn [triples]. rewrite !NN. split; [intros [H _]|intros H]; discriminate.
  - destruct l as [|x [|y [|z r]]].
    + split; [reflexivity|]. intros k a b c. unfold triangle_at. cbn [triples]. rewrite !NN. split; [intros [H _]|intros H]; discriminate.
    + split; [reflexivity|]. intros k a b c. unfold triangle_at. cbn [triples]. rewrite (NN (Z * Z * Z)%type). split; [intros (_ & H & _)|discriminate].
      replace (3 * k + 1)%nat with (S (3 * k)) in H by lia. cbn [nth_error] in H. rewrite NN in H. discriminate.
    + split; [reflexivity|]. intros k a b c. unfold triangle_at. cbn [triples]. rewrite (NN (Z * Z * Z)%type). split; [intros (_ & _ & H)|discriminate].
      replace (3 * k + 2)%nat with (S (S (3 * k))) in H by lia. cbn [nth_error] in H. rewrite NN in H. discriminate.
    + cbn in Hl. destruct (IH r ltac:(lia)) as [L H]. cbn [triples length]. split.
      * rewrite L. replace (S (S (S (length r)))) with (length r + 1 * 3)%nat by lia. rewrite Nat.div_add by lia. lia.
      * intros [|k] a b c.
        -- unfold triangle_at. cbn. split; [intros (H1 & H2 & H3)|intros H1]; injection H1; intros; subst; [injection H2; injection H3; intros; subst; reflexivity|auto].
        -- cbn [nth_error]. rewrite <- H. unfold triangle_at. replace (3 * S k)%nat with (S (S (S (3 * k)))) by lia. reflexivity.
Qed.

Section Import.
Context {T : Type} {N : Num T}.
Variable facet : T.

Lemma import_prim_spec (p : prim T) is_ l : gpIndices p = Some is_ ->
  all_some (import_face (match gpMaterial p with Some k => k | None => 0 end) (match gpUV p with Some l => l | None => [] end)) (triples is_) = Some l ->
  imports_prim p l.
Proof.
  intros Hi H. unfold imports_prim. rewrite Hi. apply all_some_spec in H. destruct (triples_nth _ is_ (le_n _)) as [L HT].
  split; [rewrite <- L; symmetry; exact (forall2_len _ _ _ H)|]. intros k a b c Ht. apply HT in Ht.
  destruct (forall2_nth _ _ _ H _ _ Ht) as (f & Hf & E). exists f. split; [exact Hf|]. unfold import_face in E. unfold prim_uvs.
  destruct (a <? _) eqn:Ea.
  - destruct (zidx _ a) as [ua|] eqn:Za; [|discriminate]. destruct (zidx _ c) as [uc|] eqn:Zc; [|discriminate]. destruct (zidx _ b) as [ub|] eqn:Zb; [|discriminate].
    injection E as <-. cbn. split; [reflexivity|]. split; [reflexivity|]. right. exists ua, ub, uc. auto.
  - injection E as <-. cbn. split; [reflexivity|]. split; [reflexivity|]. left. split; [lia|reflexivity].
Qed.
Lemma import_prims_spec (ps : list (prim T)) : forall vs fs vs' fs', import_prims ps vs fs = Some (vs', fs') ->
  vs' = vs ++ positions ps /\ exists groups, fs' = fs ++ concat groups /\ Forall2 imports_prim ps groups.
Proof.
  induction ps as [|p r IH]; intros vs fs vs' fs' H; cbn [import_prims] in H.
  - injection H as <- <-. split; [symmetry; apply app_nil_r|]. exists []. split; [symmetry; apply app_nil_r|constructor].
  - unfold positions. cbn [map concat]. fold (positions r). destruct (gpIndices p) as [is_|] eqn:Ei.
    + destruct (all_some _ (triples is_)) as [l|] eqn:El; [|discriminate]. destruct (IH _ _ _ _ H) as (-> & groups & -> & F). split.
      * destruct (gpPos p); [rewrite app_assoc|]; reflexivity.
      * exists (l :: groups). cbn. rewrite app_assoc. split; [reflexivity|]. constructor; [eapply import_prim_spec; eassumption|exact F].
    + destruct (IH _ _ _ _ H) as (-> & groups & -> & F). split; [reflexivity|]. exists ([] :: groups). split; [reflexivity|]. constructor; [|exact F].
      unfold imports_prim. rewrite Ei. reflexivity.
Qed.
Theorem import_mesh_spec (m : gmesh T) o : import_mesh facet m = Some o ->
  oName o = gmName m /\ oVisible o = true /\ oVerts o = positions (gmPrims m) /\
  exists groups, oFaces o = concat groups /\ Forall2 imports_prim (gmPrims m) groups.
Proof.
  unfold import_mesh. destruct (import_prims (gmPrims m) [] []) as [[vs fs]|] eqn:E; [|discriminate]. intros [= <-].
  destruct (import_prims_spec _ _ _ _ _ E) as (-> & groups & -> & F). cbn. eauto 6.
Qed.

(** With the same positions in all primitives, every corner is where its primitive puts it. *)
Lemma shared_positions (ps : list (prim T)) pos p : Forall (fun p => gpIndices p <> None -> gpPos p = Some pos) ps -> In p ps -> gpIndices p <> None ->
  exists rest, positions ps = pos ++ rest.
Proof.
  induction ps as [|q r IH]; intros F Hin Hi; [destruct Hin|]. inversion F as [|? ? F1 F2]; subst. unfold positions. cbn [map concat]. fold (positions r).
  destruct (gpIndices q) as [is_|] eqn:Eq.
  - rewrite F1 by discriminate. eauto.
  - destruct Hin as [<-|Hin]; [congruence|]. apply IH; assumption.
Qed.
Theorem shared_corners (m : gmesh T) o pos : import_mesh facet m = Some o -> Forall (fun p => gpIndices p <> None -> gpPos p = Some pos) (gmPrims m) ->
  forall p is_ k a b c qa qb qc, In p (gmPrims m) -> gpIndices p = Some is_ -> triangle_at is_ k a b c ->
  prim_pos p a qa -> prim_pos p b qb -> prim_pos p c qc ->
  exists f, In f (oFaces o) /\ fVerts f = [a; c; b] /\
    zidx (oVerts o) a = Some qa /\ zidx (oVerts o) b = Some qb /\ zidx (oVerts o) c = Some qc.
Proof.
  intros H HS p is_ k a b c qa qb qc Hp Hi Ht Ha Hb Hc. destruct (import_mesh_spec m o H) as (_ & _ & Hv & groups & Hf & F).
  apply In_nth_error in Hp as (j & Hj). destruct (forall2_nth _ _ _ F _ _ Hj) as (gs & Hgs & Hp). unfold imports_prim in Hp. rewrite Hi in Hp.
  destruct Hp as [_ Hp]. destruct (Hp k a b c Ht) as (f & Hk & Hfv & _). exists f. split.
  { rewrite Hf. apply in_concat. exists gs. split; eapply nth_error_In; eassumption. }
  split; [exact Hfv|]. apply nth_error_In in Hj. destruct (shared_positions (gmPrims m) pos p HS Hj) as (rest & Hr); [congruence|].
  rewrite Forall_forall in HS. pose proof (HS p Hj ltac:(congruence)) as Ep. unfold prim_pos in *. rewrite Ep in *.
  destruct Ha as (? & [= <-] & Ha), Hb as (? & [= <-] & Hb), Hc as (? & [= <-] & Hc). rewrite Hv, Hr.
  repeat split; apply zidx_app1; assumption.
Qed.

(** *** There and back *)
Lemma triangle_concat (ts : list (list Z)) k a b c : Forall (fun t => length t = 3%nat) ts -> nth_error ts k = Some [a; b; c] -> triangle_at (concat ts) k a b c.
Proof.
  revert k. induction ts as [|t r IH]; intros k F H; [destruct k; discriminate|]. inversion F as [|? ? L F']; subst.
  destruct t as [|x [|y [|z [|? ?]]]]; try discriminate. unfold triangle_at. destruct k as [|k].
  - injection H as -> -> ->. repeat split.
  - cbn in H. specialize (IH k F' H). unfold triangle_at in IH. replace (3 * S k)%nat with (S (S (S (3 * k)))) by lia. exact IH.
Qed.
Lemma concat_length3 {A} (ts : list (list A)) : Forall (fun t => length t = 3%nat) ts -> (length (concat ts) / 3)%nat = length ts.
Proof.
  intros F. assert (L : length (concat ts) = (length ts * 3)%nat).
  { induction F as [|t r L F IH]; [reflexivity|]. cbn. rewrite app_length, L, IH. reflexivity. }
  rewrite L. apply Nat.div_mul. lia.
Qed.
Lemma triples_concat (ts : list (list Z)) : Forall (fun t => length t = 3%nat) ts -> Forall2 (fun t p => t = [fst (fst p); snd (fst p); snd p]) ts (triples (concat ts)).
Proof.
  induction 1 as [|t r L F IH]; [constructor|]. destruct t as [|x [|y [|z [|? ?]]]]; try discriminate. cbn. constructor; [reflexivity|exact IH].
Qed.

Lemma group_perm (mm : Z -> option Z) (tris : list (face T)) : forall ks, NoDup ks ->
  (forall f k, In f tris -> mm (fMaterial f) = Some k -> In k ks) ->
  Permutation (concat (map (fun k => filter (fun f => match mm (fMaterial f) with Some k' => k' =? k | None => false end) tris) ks)) (filter (is_mapped mm) tris).
Proof.
  intros ks ND. induction tris as [|f r IH]; intros H.
  - cbn. induction ks; [constructor|]. cbn. inversion ND; subst. apply IHks; [assumption|intros ? ? []].
  - cbn [filter]. unfold is_mapped at 1. destruct (mm (fMaterial f)) as [k|] eqn:Ek.
    + assert (Hk : In k ks) by (eapply H; [left; reflexivity|exact Ek]). apply in_split in Hk as (k1 & k2 & ->).
      assert (N1 : ~ In k k1 /\ ~ In k k2).
      { pose proof (NoDup_remove_2 _ _ _ ND) as Hn. split; intros Hi; apply Hn; apply in_or_app; auto. }
      assert (Same : forall l, ~ In k l -> map (fun k0 => if k =? k0 then f :: filter (fun f => match mm (fMaterial f) with Some k' => k' =? k0 | None => false end) r
                       else filter (fun f => match mm (fMaterial f) with Some k' => k' =? k0 | None => false end) r) l =
                     map (fun k0 => filter (fun f => match mm (fMaterial f) with Some k' => k' =? k0 | None => false end) r) l).
      { intros l Hl. apply map_ext_in. intros x Hx. destruct (Z.eqb_spec k x) as [->|]; [contradiction|reflexivity]. }
      rewrite map_app, concat_app. cbn [map concat]. rewrite (Same k1), (Same k2) by tauto. rewrite Z.eqb_refl. cbn [app].
      eapply Permutation_trans; [apply Permutation_sym, Permutation_middle|]. constructor.
      rewrite <- (IH ltac:(intros; eapply H; [right; eassumption|eassumption])). rewrite map_app, concat_app. reflexivity.
    + apply IH. intros; eapply H; [right; eassumption|eassumption].
Qed.

Lemma prim_back (scale eps : T) (o : object T) ws morphs nrm mm tris (p : prim T) mesh gs o' :
  exports_faces scale eps o ws morphs nrm mm tris p -> Forall (fun f => fUVs f = [] \/ length (fUVs f) = 3%nat) tris -> Forall (fun f => length (fVerts f) = 3%nat) tris ->
  imports_prim p gs -> (forall i q, prim_pos p i q -> zidx (oVerts o') i = Some q) ->
  (forall us, gpUV p = Some us -> exists ps, gpPos p = Some ps /\ length us = length ps) -> mesh = gpMaterial p ->
  exists k, mesh = Some k /\ Forall2 (same_triangle scale eps mm o o') (filter (fun f => match mm (fMaterial f) with Some k' => k' =? k | None => false end) tris) gs.
Proof.
  intros (k & ts & Hk & Hi & F) HU H3 Hp Hpos Huv ->. exists k. split; [exact Hk|]. unfold imports_prim in Hp. rewrite Hi in Hp. destruct Hp as [L Hp].
  assert (F3 : Forall (fun t => length t = 3%nat) ts).
  { apply Forall_forall. intros t Ht. destruct (forall2_in_r _ _ _ _ F Ht) as (f & _ & a & b & c & -> & _). reflexivity. }
  rewrite concat_length3 in L by exact F3. 
  assert (G : forall j f, nth_error (filter (fun f => match mm (fMaterial f) with Some k' => k' =? k | None => false end) tris) j = Some f ->
     exists g, nth_error gs j = Some g /\ same_triangle scale eps mm o o' f g).
  { intros j f Hj. destruct (forall2_nth _ _ _ F _ _ Hj) as (t & Ht & a & b & c & -> & Ca & Cb & Cc).
    destruct (Hp j c b a (triangle_concat ts j c b a F3 Ht)) as (g & Hg & Gv & Gm & Gu). exists g. split; [exact Hg|].
    apply nth_error_In in Hj. apply filter_In in Hj as [Hin Hm]. split.
    { destruct (mm (fMaterial f)) as [k'|]; [|discriminate]. apply Z.eqb_eq in Hm. subst k'. rewrite Gm, Hk. reflexivity. }
    rewrite Forall_forall in HU, H3. specialize (HU f Hin). specialize (H3 f Hin).
    destruct Ca as (x & Hx & (pos & qx & P1 & P2 & P3 & _) & Ux & _), Cb as (y & Hy & (pos' & qy & P1' & P2' & P3' & _) & Uy & _), Cc as (z & Hz & (pos'' & qz & P1'' & P2'' & P3'' & _) & Uz & _).
    destruct (fVerts f) as [|x0 [|y0 [|z0 [|? ?]]]]; try discriminate. cbn in Hx, Hy, Hz. injection Hx as ->. injection Hy as ->. injection Hz as ->.
    exists x, y, z, a, b, c, qx, qy, qz. split; [reflexivity|]. split; [exact Gv|].
    split; [exact P2|]. split; [apply Hpos; eexists; eauto|]. split; [exact P2'|]. split; [apply Hpos; eexists; eauto|]. split; [exact P2''|]. split; [apply Hpos; eexists; eauto|].
    intros Ne. destruct (Ux Ne) as (us & ux & tx & U1 & U2 & U3 & U4), (Uy Ne) as (us' & uy & ty & U1' & U2' & U3' & U4'), (Uz Ne) as (us'' & uz & tz & U1'' & U2'' & U3'' & U4'').
    rewrite U1 in U1', U1''. injection U1' as <-. injection U1'' as <-. unfold prim_uvs in Gu. rewrite U1 in Gu.
    destruct Gu as [[B _]|(ua & ub & uc & G1 & G2 & G3 & G4)]; [apply zidx_bound in U3''; lia|].
    rewrite U3'' in G1. rewrite U3' in G2. rewrite U3 in G3. injection G1 as <-. injection G2 as <-. injection G3 as <-.
    destruct HU as [HU|HU]; [contradiction|]. destruct (fUVs f) as [|a1 [|a2 [|a3 [|? ?]]]]; try discriminate. cbn in U2, U2', U2''.
    injection U2 as ->. injection U2' as ->. injection U2'' as ->. exists ux, uy, uz, tx, ty, tz. auto. }
  apply forall2_len in F. rewrite <- L in F. clear - G F. revert gs F G. generalize (filter (fun f => match mm (fMaterial f) with Some k' => k' =? k | None => false end) tris).
  induction l as [|f r IH]; intros gs F G; destruct gs as [|g gs]; try discriminate; constructor.
  - destruct (G O f eq_refl) as (g' & [= ->] & H). exact H.
  - apply IH; [injection F as F; exact F|]. intros j f' Hj. exact (G (S j) f' Hj).
Qed.
End Import.

(** Cutting into triangles keeps texture coordinates complete. *)
Lemma triangles_uvs {T : Type} (fs : list (face T)) gss nv : Forall2 triangulates fs gss -> Forall (MqoSpec.face_ok nv) fs ->
  Forall (fun f => length (fVerts f) = 3%nat /\ (fUVs f = [] \/ length (fUVs f) = 3%nat)) (concat gss).
Proof.
  induction 1 as [|f gs fs gss Ht TR IH]; intros F; cbn; [constructor|]. inversion F as [|? ? F1 F2]; subst. apply Forall_app. split; [|apply IH; exact F2]. clear IH TR.
  pose proof (triangles_valid _ f gs F1 Ht) as TV. destruct Ht as (_ & Hs & Hl).
  destruct (Nat.lt_ge_cases (length (fVerts f)) 3) as [L|L]; [rewrite (Hs L); constructor|].
  destruct (Hl L) as (ts & FF & _). clear Hs Hl. revert TV. induction FF as [|h t gs' ts (_ & _ & AU & _) FF IH]; intros TV; [constructor|].
  inversion TV as [|? ? [V1 V2] V3]; subst. constructor; [|apply IH; exact V3]. split; [exact V1|]. destruct t as [[a b] c].
  destruct AU as [[_ Q]|(x & y & z & _ & _ & _ & ->)]; [left; exact Q|right; reflexivity].
Qed.

Lemma import_list {T : Type} {N : Num T} (facet : T) (meshes : list (gmesh T)) (P : object T -> object T -> Prop) : forall (os : list (object T)) (nodes : list (gnode T)),
  (forall i o, nth_error os i = Some o -> exists n, nth_error nodes i = Some n /\
     forall mi, gnMesh n = Some mi -> exists m o', nth_error meshes mi = Some m /\ import_mesh facet m = Some o' /\ P o o') ->
  (forall i n, nth_error nodes i = Some n -> (length os <= i)%nat -> gnMesh n = None) ->
  exists os', all_some (fun i => match nth_error meshes i with Some m => import_mesh facet m | None => None end)
      (flat_map (fun n => match gnMesh n with Some i => [i] | None => [] end) nodes) = Some os' /\
    Forall2 P (map fst (filter (fun p => match gnMesh (snd p) with Some _ => true | None => false end) (combine os nodes))) os'.
Proof.
  induction os as [|o r IH]; intros nodes H H0.
  - exists []. split; [|constructor]. assert (Q : flat_map (fun n : gnode T => match gnMesh n with Some i => [i] | None => [] end) nodes = []); [|rewrite Q; reflexivity].
    induction nodes as [|n ns IHn]; [reflexivity|]. cbn. rewrite (H0 O n eq_refl ltac:(cbn; lia)). cbn. apply IHn; [intros [|i] ? ?; discriminate|].
    intros i m Hi _. apply (H0 (S i) m Hi). cbn. lia.
  - destruct nodes as [|n ns]; [destruct (H O o eq_refl) as (n & Hn & _); discriminate|].
    destruct (IH ns) as (os' & E & F).
    { intros i x Hi. exact (H (S i) x Hi). } { intros i m Hi L. apply (H0 (S i) m Hi). cbn. lia. }
    destruct (H O o eq_refl) as (n' & [= <-] & Hm). cbn [flat_map combine filter]. cbn [snd]. destruct (gnMesh n) as [mi|]; [|exists os'; auto].
    destruct (Hm mi eq_refl) as (m & o' & Em & Ei & Po). exists (o' :: os'). cbn. rewrite Em, Ei, E. split; [reflexivity|]. constructor; assumption.
Qed.

Lemma map_some {A} (l : list (option A)) : (forall x, In x l -> x <> None) -> exists r, l = map Some r.
Proof.
  induction l as [|[x|] r IH]; intros H; [exists []; reflexivity| |exfalso; apply (H None); [left; reflexivity|reflexivity]].
  destruct IH as (l' & ->); [intros y Hy; apply H; right; exact Hy|]. exists (x :: l'). reflexivity.
Qed.
Lemma map_some_inj {A B} (f : A -> B) l l' : map (fun x => Some (f x)) l = map Some l' -> map f l = l'.
Proof. revert l'. induction l as [|x r IH]; intros [|y r']; try discriminate; [reflexivity|]. cbn. intros [= -> H]. f_equal. apply IH. exact H. Qed.

Section Back.
Context {T : Type} {N : Num T}.
Variables (scale centi eps : T) (ign unlit : bool) (opaque99 rough : T) (tex_alpha : material T -> bool).
Variables (facet half : T) (has_pbr : gmat T -> bool).

(** A mesh of the exporter is imported as its object. *)
Lemma mesh_back objs sets bones mm (o : object T) mesh : well_indexed o -> exports_mesh scale eps centi unlit objs sets bones mm o mesh ->
  exists o', import_mesh facet mesh = Some o' /\ comes_back scale eps mm o o'.
Proof.
  intros W (tris & ws & morphs & TR & _ & _ & _ & Hname & _ & ND & K & FP & pos & uv & SV & Luv).
  assert (T3 : Forall (fun f => length (fVerts f) = 3%nat /\ (fUVs f = [] \/ length (fUVs f) = 3%nat)) tris).
  { destruct TR as (fs & gss & C & G & ->). apply (triangles_uvs _ _ (length (oVerts o)) G). exact (completed_ok o W _ C). }
  rewrite Forall_forall in FP, SV.
  assert (Tot : exists vf, import_prims (gmPrims mesh) [] [] = Some vf).
  { assert (G : forall ps vs fs, (forall p, In p ps -> In p (gmPrims mesh)) -> exists vf, import_prims ps vs fs = Some vf); [|apply G; auto].
    induction ps as [|p r IH]; intros vs fs Hin; cbn [import_prims]; [eauto|].
    destruct (gpIndices p) as [is_|] eqn:Ei; [|apply IH; intros q Hq; apply Hin; right; exact Hq].
    pose proof (Hin p (or_introl eq_refl)) as Hp. destruct (FP p Hp) as (EF & _). destruct (SV p Hp) as (Ep & Eu).
    assert (IC : forall id, In id is_ -> exists ps, pos = Some ps /\ 0 <= id < Z.of_nat (length ps)).
    { intros id Hid. destruct (index_corner _ _ _ _ _ _ _ _ _ _ _ EF Ei Hid) as (f & i & _ & x & _ & (ps & q & Q1 & _ & Q3 & _) & _).
      rewrite Ep in Q1. exists ps. split; [exact Q1|]. apply zidx_bound in Q3. exact Q3. }
    destruct (all_some_total (import_face (match gpMaterial p with Some k => k | None => 0 end) (match gpUV p with Some l => l | None => [] end)) (triples is_)) as (l & ->).
    - intros [[a b] c] Ht. apply In_nth_error in Ht as (k & Hk). apply (proj2 (triples_nth _ is_ (le_n _))) in Hk as (Ha & Hb & Hc).
      apply nth_error_In in Ha, Hb, Hc. unfold import_face. destruct (Z.ltb_spec a (Z.of_nat (length (match gpUV p with Some l => l | None => [] end)))) as [La|]; [|eauto].
      rewrite Eu in *. destruct (IC a Ha) as (ps & Eps & Ba), (IC b Hb) as (ps' & Eps' & Bb), (IC c Hc) as (ps'' & Eps'' & Bc).
      rewrite Eps in Eps', Eps''. injection Eps' as <-. injection Eps'' as <-.
      destruct uv as [us|]; [|cbn in La; lia]. destruct (Luv us eq_refl) as (ps' & Q & L). rewrite Eps in Q. injection Q as <-.
      destruct (zidx us a) eqn:Za; [|apply zidx_None in Za; lia]. destruct (zidx us b) eqn:Zb; [|apply zidx_None in Zb; lia]. destruct (zidx us c) eqn:Zc; [|apply zidx_None in Zc; lia]. eauto.
    - apply IH. intros q Hq. apply Hin. right. exact Hq. }
  destruct Tot as ([vs fs] & Tot). assert (Ei : import_mesh facet mesh = Some (new_object facet (gmName mesh) vs fs)) by (unfold import_mesh; rewrite Tot; reflexivity).
  exists (new_object facet (gmName mesh) vs fs). split; [exact Ei|]. set (o' := new_object facet (gmName mesh) vs fs) in *.
  destruct (import_mesh_spec facet mesh o' Ei) as (_ & _ & Hv & groups & Hf & G).
  split; [exact Hname|]. exists tris.
  destruct (map_some (map gpMaterial (gmPrims mesh))) as (ks & Eks).
  { intros x Hx. apply in_map_iff in Hx as (p & <- & Hp). destruct (FP p Hp) as ((k & ts & Hk & _) & _). congruence. }
  exists (concat (map (fun k => filter (fun f => match mm (fMaterial f) with Some k' => k' =? k | None => false end) tris) ks)). split; [exact TR|]. split.
  - apply group_perm.
    + rewrite Eks in ND. exact (NoDup_map_inv _ _ ND).
    + intros f k Hin Hk. assert (Hx : In (Some k) (map gpMaterial (gmPrims mesh))) by (apply K; eauto). rewrite Eks in Hx. apply in_map_iff in Hx as (k' & [= ->] & Hx). exact Hx.
  - rewrite Hf.
    assert (Pos : forall p i q, In p (gmPrims mesh) -> prim_pos p i q -> zidx (oVerts o') i = Some q).
    { intros p i q Hp (ps & Q1 & Q2). rewrite Hv. destruct (SV p Hp) as (Ep & _).
      destruct (FP p Hp) as ((k & ts & _ & Hi & _) & _).
      destruct (shared_positions (gmPrims mesh) ps p) as (rest & ->); [|exact Hp|congruence|apply zidx_app1; exact Q2].
      apply Forall_forall. intros p' Hp' _. destruct (SV p' Hp') as (Ep' & _). congruence. }
    assert (PU : forall p us, In p (gmPrims mesh) -> gpUV p = Some us -> exists ps, gpPos p = Some ps /\ length us = length ps).
    { intros p us Hp Hus. destruct (SV p Hp) as (Ep & Eu). rewrite Ep. apply Luv. congruence. }
    assert (PF : forall p, In p (gmPrims mesh) -> exports_faces scale eps o ws morphs (given_normal tris) mm tris p) by (intros p Hp; exact (proj1 (FP p Hp))).
    clear FP SV K ND Hv Hf Tot Ei Luv Hname. revert ks Eks Pos PU PF. induction G as [|p gs ps groups Gp G IH]; intros ks Eks Pos PU PF.
    + destruct ks; [constructor|discriminate].
    + destruct ks as [|k ks]; [discriminate|]. cbn [map] in Eks. assert (Ek : gpMaterial p = Some k) by congruence. assert (Er : map gpMaterial ps = map Some ks) by congruence.
      cbn [map concat]. apply Forall2_app; [|apply IH; [exact Er|intros q ? ? Hq; apply Pos; right; exact Hq|intros q ? Hq; apply PU; right; exact Hq|intros q Hq; apply PF; right; exact Hq]].
      destruct (prim_back scale eps o ws morphs (given_normal tris) mm tris p (gpMaterial p) gs o') as (k' & Ek' & R).
      * apply PF. left. reflexivity.
      * eapply Forall_impl; [|exact T3]. cbn. tauto.
      * eapply Forall_impl; [|exact T3]. cbn. tauto.
      * exact Gp.
      * intros i q. apply Pos. left. reflexivity.
      * intros us. apply PU. left. reflexivity.
      * reflexivity.
      * rewrite Ek in Ek'. injection Ek' as <-. exact R.
Qed.

Lemma import_skins_none fuel (nodes : list (gnode T)) skins : Forall (fun s => gsSkeleton s = None) skins -> forall seen bones, import_skins fuel nodes skins seen bones = Some bones.
Proof. induction 1 as [|s r H F IH]; intros seen bones; cbn [import_skins]; [reflexivity|]. rewrite H. apply IH. Qed.

Variables (d : document T) (bones : list (bone T)) (sets : list target_list) (g : gdoc T).
Hypothesis E : to_gltf scale centi eps ign unlit opaque99 rough tex_alpha d bones sets = Some g.
Hypothesis HB : NoDup (map bID bones).
Hypothesis W : Forall well_indexed (dObjects d).
Notation os := (exported_objects ign sets (fix_ids 0 (dObjects d))).
Hypothesis HF : Forall (fun o => Z.of_nat (length (lists_of o bones)) <= 65536) os.

Lemma skins_without_skeleton : Forall (fun s => gsSkeleton s = None) (gdSkins g).
Proof.
  destruct (conv_inv _ _ _ _ _ _ _ _ _ _ _ _ E) as (ts & g0 & ns & ms & ss & gr & H1 & H2 & H3 & H4 & H5 & H6 & H7 & H8).
  apply conv_objects_spec in H2 as (_ & (l & -> & F) & _). rewrite H7. cbn [app]. eapply Forall_impl; [|exact F].
  intros s (o & morphs & mesh & joints & _ & _ & _ & B). unfold make_skin in B. destruct (all_some _ joints); [|discriminate]. injection B as <-. reflexivity.
Qed.

Theorem round_trip fuel : exists mm d', renumbers os (dMaterials d) (gdMats g) mm /\
  from_gltf facet has_pbr half fuel g = Some (d', []) /\
  Forall2 (comes_back scale eps mm)
    (map fst (filter (fun p => match gnMesh (snd p) with Some _ => true | None => false end) (combine os (gdNodes g)))) (dObjects d').
Proof.
  destruct (exports_all scale centi eps ign unlit opaque99 rough tex_alpha d bones sets g E HB W HF) as (mm & R & X).
  destruct (import_list facet (gdMeshes g) (comes_back scale eps mm) os (gdNodes g)) as (os' & Eo & F).
  - intros i o Hi. destruct (X i o Hi) as (n & Hn & _ & _ & V0 & V1). exists n. split; [exact Hn|]. intros mi Hmi.
    destruct (oVisible o) eqn:Ev; [|destruct (V0 eq_refl); congruence]. destruct (V1 eq_refl) as ((mesh & M & [[_ Q]|[_ (mi' & Q1 & Q2)]]) & _); [congruence|].
    rewrite Hmi in Q1. injection Q1 as <-. 
    pose proof (os_indexed ign d sets W) as OI. rewrite Forall_forall in OI. specialize (OI o (nth_error_In _ _ Hi)).
    destruct (mesh_back _ _ _ mm o mesh OI M) as (o' & H1 & H2). exists mesh, o'. auto.
  - intros i n Hn L. destruct (facts scale centi eps ign unlit opaque99 rough tex_alpha d bones sets g E HB) as (ts & ns & ms & ss & gr & FF & _).
    pose proof (nodes_length scale ign d bones sets g ts ns gr FF) as NL. assert (Hl : (i < length (gdNodes g))%nat) by (apply nth_error_Some; congruence).
    rewrite NL in Hl. change (GltfTop.os ign d sets) with os in Hl.
    destruct (nth_error bones (i - length os)) as [b|] eqn:Eb; [|apply nth_error_None in Eb; lia].
    destruct (bone_node_at scale centi eps ign unlit opaque99 rough tex_alpha d bones sets g E HB _ _ Eb) as (n' & Hn' & _ & _ & Hm & _).
    change (GltfTop.os ign d sets) with os in Hn'. replace (length os + (i - length os))%nat with i in Hn' by lia. rewrite Hn in Hn'. injection Hn' as <-. exact Hm.
  - exists mm, (mkDocument (map (import_material has_pbr half) (gdMats g)) os'). split; [exact R|]. split; [|exact F].
    unfold from_gltf. rewrite Eo, import_skins_none by exact skins_without_skeleton. reflexivity.
Qed.
End Back.

Section Skeleton.
Context {T : Type} {N : Num T}.
Variable nodes : list (gnode T).

Lemma fold_none {A B} (f : B -> A -> option B) l : fold_left (fun acc x => match acc with Some b => f b x | None => None end) l None = None.
Proof. induction l as [|x r IH]; [reflexivity|exact IH]. Qed.

Lemma import_bones_spec : forall fuel node parent bs bs', import_bones fuel nodes node parent bs = Some bs' ->
  exists l new base, subtree nodes node l /\ bs' = bs ++ new /\
    (if 0 <? parent then exists p, zidx bs (parent - 1) = Some p /\ base = Some (bPos p) else base = None) /\
    skeleton_bones nodes (Z.of_nat (length bs)) l parent base new.
Proof.
  induction fuel as [|f IH]; intros node parent bs bs' H; [discriminate|]. cbn [import_bones] in H.
  destruct (nth_error nodes node) as [n|] eqn:En; [|discriminate].
  set (pos := if 0 <? parent then _ else _) in H. destruct pos as [ps|] eqn:Ep; [|discriminate]. subst pos.
  set (id := Z.of_nat (length bs) + 1) in *. set (root := mkBone id (gnName n) parent ps []) in *.
  assert (G : forall cs done ls new, gnChildren n = done ++ cs -> Forall2 (subtree nodes) done ls ->
    (exists base, (if 0 <? parent then exists p, zidx bs (parent - 1) = Some p /\ base = Some (bPos p) else base = None) /\
      skeleton_bones nodes (Z.of_nat (length bs)) (node :: concat ls) parent base (root :: new)) ->
    fold_left (fun acc c => match acc with Some x => import_bones f nodes c id x | None => None end) cs (Some (bs ++ root :: new)) = Some bs' ->
    exists l new base, subtree nodes node l /\ bs' = bs ++ new /\
    (if 0 <? parent then exists p, zidx bs (parent - 1) = Some p /\ base = Some (bPos p) else base = None) /\
    skeleton_bones nodes (Z.of_nat (length bs)) l parent base new).
  { induction cs as [|c cs IHc]; intros dn ls new Ed F (base & Hb & SB) Hf.
    - cbn in Hf. injection Hf as <-. rewrite app_nil_r in Ed. subst dn. exists (node :: concat ls), (root :: new), base.
      split; [eapply st_node; eassumption|]. auto.
    - cbn [fold_left] in Hf. destruct (import_bones f nodes c id (bs ++ root :: new)) as [b2|] eqn:Ec; [|rewrite fold_none in Hf; discriminate].
      destruct (IH _ _ _ _ Ec) as (lc & nc & basec & Sc & -> & Hbc & (Lc & SBc)). clear Ec.
      rewrite <- app_assoc in Hf. cbn [app] in Hf.
      apply (IHc (dn ++ [c]) (ls ++ [lc]) (new ++ nc)); [rewrite <- app_assoc; exact Ed|apply Forall2_app; [exact F|constructor; [exact Sc|constructor]]| |exact Hf].
      exists base. split; [exact Hb|]. rewrite concat_app. cbn [concat]. rewrite app_nil_r.
      destruct SB as (LS & SB). change (root :: new ++ nc) with ((root :: new) ++ nc). change (node :: concat ls ++ lc) with ((node :: concat ls) ++ lc).
      split; [rewrite !app_length; lia|]. intros k b Hk.
      destruct (Nat.lt_ge_cases k (length (root :: new))) as [L|L].
      + rewrite nth_error_app1 in Hk by exact L. destruct (SB k b Hk) as (Q1 & Q2 & i & ni & Q3 & Q4 & Q5 & Q6). split; [exact Q1|]. split; [exact Q2|].
        exists i, ni. split; [apply nth_app_some; exact Q3|]. split; [exact Q4|]. split; [exact Q5|].
        destruct Q6 as [Q6|(j & pi & pn & pb & R1 & R2 & R3 & R4 & R5 & R6)]; [left; exact Q6|right].
        exists j, pi, pn, pb. split; [exact R1|]. split; [apply nth_app_some; exact R2|]. split; [exact R3|]. split; [exact R4|]. split; [apply nth_app_some; exact R5|exact R6].
      + rewrite nth_error_app2 in Hk by exact L. destruct (SBc _ b Hk) as (Q1 & Q2 & i & ni & Q3 & Q4 & Q5 & Q6).
        assert (Hadd : forall j x, nth_error lc j = Some x -> nth_error ((node :: concat ls) ++ lc) (length (root :: new) + j) = Some x).
        { intros j x Hj. rewrite nth_error_app2 by lia. rewrite <- Hj. f_equal. lia. }
        split; [rewrite Q1, app_length; lia|]. split; [exact Q2|]. exists i, ni.
        split; [replace k with (length (root :: new) + (k - length (root :: new)))%nat by lia; apply Hadd; exact Q3|]. split; [exact Q4|]. split; [exact Q5|]. right.
        destruct Q6 as [(K0 & Qp & Qpos)|(j & pi & pn & pb & R1 & R2 & R3 & R4 & R5 & R6)].
        * exists O, node, n, root. split; [cbn [length] in L; lia|]. split; [reflexivity|]. split; [exact En|].
          split; [rewrite Ed; apply in_or_app; right; left; destruct Sc; rewrite K0 in Q3; injection Q3 as <-; reflexivity|].
          split; [reflexivity|]. split; [exact Qp|].
          replace (0 <? id) with true in Hbc by (symmetry; apply Z.ltb_lt; unfold id; lia). destruct Hbc as (p & Zp & ->).
          replace (id - 1) with (Z.of_nat (length bs)) in Zp by (unfold id; lia).
          assert (Zr : zidx (bs ++ root :: new) (Z.of_nat (length bs)) = Some root).
          { apply zidx_Some. split; [lia|]. rewrite Nat2Z.id, nth_error_app2, Nat.sub_diag by lia. reflexivity. }
          rewrite Zr in Zp. injection Zp as <-. exact Qpos.
        * exists (length (root :: new) + j)%nat, pi, pn, pb. split; [lia|]. split; [apply Hadd; exact R2|]. split; [exact R3|]. split; [exact R4|].
          split; [rewrite nth_error_app2 by lia; rewrite <- R5; f_equal; lia|exact R6]. }
  apply (G (gnChildren n) [] [] []); [reflexivity|constructor| |exact H]. clear G H IH.
  assert (B : exists base, (if 0 <? parent then exists p, zidx bs (parent - 1) = Some p /\ base = Some (bPos p) else base = None) /\
     ps = match base with Some q => v3add (gnTrans n) q | None => gnTrans n end).
  { destruct (0 <? parent); [|injection Ep as <-; exists None; auto]. destruct (zidx bs (parent - 1)) as [p|]; [|discriminate]. injection Ep as <-.
    exists (Some (bPos p)). split; [exists p; auto|reflexivity]. }
  destruct B as (base & B1 & B2). exists base. split; [exact B1|]. split; [reflexivity|]. intros [|[|k]] b Hk; try discriminate. injection Hk as <-.
  split; [cbn; unfold id; lia|]. split; [reflexivity|]. exists node, n. split; [reflexivity|]. split; [exact En|]. split; [reflexivity|]. left. auto.
Qed.

(** A finite skeleton is imported. *)
Fixpoint subtree_depth node l (H : subtree nodes node l) {struct H} :
  exists f, forall fuel parent bs, (f <= fuel)%nat -> 0 <= parent <= Z.of_nat (length bs) -> exists bs', import_bones fuel nodes node parent bs = Some bs'.
Proof.
  destruct H as [i n ls En F].
  assert (G : exists f, Forall (fun c => forall fuel parent bs, (f <= fuel)%nat -> 0 <= parent <= Z.of_nat (length bs) -> exists bs', import_bones fuel nodes c parent bs = Some bs') (gnChildren n)).
  { induction F as [|c lc cs ls Hc F IH]; [exists O; constructor|]. destruct (subtree_depth c lc Hc) as (f1 & H1). destruct IH as (f2 & H2). clear subtree_depth F Hc.
    exists (max f1 f2). constructor; [intros fuel p bs L; apply H1; lia|]. eapply Forall_impl; [|exact H2]. cbn. intros x Hx fuel p bs L. apply Hx. lia. }
  clear subtree_depth F. destruct G as (f & G). exists (S f). intros [|fuel] parent bs L B; [lia|]. cbn [import_bones]. rewrite En.
  set (pos := if 0 <? parent then _ else _). assert (P : exists ps, pos = Some ps).
  { unfold pos. destruct (Z.ltb_spec 0 parent); [|eauto]. destruct (zidx bs (parent - 1)) eqn:Ez; [cbn; eauto|]. apply zidx_None in Ez. lia. }
  destruct P as (ps & ->). set (root := mkBone _ _ _ _ _). set (id := Z.of_nat (length bs) + 1).
  assert (Q : id <= Z.of_nat (length (bs ++ [root]))) by (rewrite app_length; cbn; unfold id; lia). assert (Q0 : 0 <= id) by (unfold id; lia).
  generalize dependent (bs ++ [root]). clearbody id root. clear En B. induction G as [|c cs Hc G IH]; intros acc Q; [cbn; eauto|].
  cbn [fold_left]. destruct (Hc fuel id acc) as (b2 & E2); [lia|lia|]. rewrite E2. apply IH.
  destruct (import_bones_spec _ _ _ _ _ E2) as (l & new & base & _ & -> & _). rewrite app_length. lia.
Qed.
End Skeleton.

Lemma root_bones {T : Type} {N : Num T} (nodes : list (gnode T)) fuel root bs bs' : import_bones fuel nodes root 0 bs = Some bs' ->
  exists l new, subtree nodes root l /\ bs' = bs ++ new /\ skeleton_bones nodes (Z.of_nat (length bs)) l 0 None new.
Proof. intros H. destruct (import_bones_spec nodes _ _ _ _ _ H) as (l & new & base & H1 & H2 & -> & H3). eauto. Qed.
Lemma root_total {T : Type} {N : Num T} (nodes : list (gnode T)) root l : subtree nodes root l ->
  exists f, forall fuel bs, (f <= fuel)%nat -> exists bs', import_bones fuel nodes root 0 bs = Some bs'.
Proof. intros H. destruct (subtree_depth nodes root l H) as (f & Hf). exists f. intros fuel bs L. apply Hf; [exact L|lia]. Qed.

Lemma material_back {T : Type} {N : Num T} (has_pbr : gmat T -> bool) half opaque99 rough tex_alpha (m : gmat T) : has_pbr m = true ->
  let m' := convert_material false opaque99 rough tex_alpha (import_material has_pbr half m) in
  gtName m' = gtName m /\ gtColor m' = gtColor m /\ gtMetal m' = gtMetal m /\ gtRough m' = gtRough m /\ gtDouble m' = gtDouble m /\
  (nltb none (vx (gtEmissive m)) = false -> nltb none (vy (gtEmissive m)) = false -> nltb none (vz (gtEmissive m)) = false -> gtEmissive m' = gtEmissive m).
Proof.
  intros H. unfold convert_material, import_material. rewrite H. cbn. repeat split. intros Hx Hy Hz. unfold emissive. cbn.
  unfold nmax. destruct (nltb (vy (gtEmissive m)) (vx (gtEmissive m))), (nltb (vz (gtEmissive m)) _); rewrite ?Hx, ?Hy, ?Hz; reflexivity.
Qed.

Lemma skins_bones {T : Type} {N : Num T} fuel (nodes : list (gnode T)) : forall skins seen roots bs bs', (forall k, In k seen <-> In k roots) -> NoDup roots -> skeletons nodes roots bs ->
  import_skins fuel nodes skins seen bs = Some bs' ->
  exists roots', NoDup roots' /\ (forall k, In k roots' <-> In k roots \/ exists s, In s skins /\ gsSkeleton s = Some k) /\ skeletons nodes roots' bs'.
Proof.
  induction skins as [|s r IH]; intros seen roots bs bs' I ND SK H; cbn [import_skins] in H.
  - injection H as <-. exists roots. split; [exact ND|]. split; [|exact SK]. intros k. split; [auto|]. intros [Hk|(s & [] & _)]. exact Hk.
  - destruct (gsSkeleton s) as [k|] eqn:Es.
    + destruct (existsb (Nat.eqb k) seen) eqn:Ex.
      * apply existsb_exists in Ex as (k' & Hk & Ek). apply Nat.eqb_eq in Ek as <-. destruct (IH _ _ _ _ I ND SK H) as (rs & A & B & C). exists rs. split; [exact A|]. split; [|exact C].
        intros j. rewrite B. split; [intros [Hj|(s0 & Hs0 & E0)]; [auto|right; exists s0; split; [right; exact Hs0|exact E0]]|].
        intros [Hj|(s0 & [<-|Hs0] & E0)]; [auto| |right; eauto]. left. apply I. congruence.
      * destruct (import_bones fuel nodes k 0 bs) as [b1|] eqn:Eb; [|discriminate]. destruct (root_bones _ _ _ _ _ Eb) as (l & new & S1 & -> & S2).
        assert (Hk : ~ In k roots). { intros Hk. apply I in Hk. assert (existsb (Nat.eqb k) seen = true) by (apply existsb_exists; exists k; split; [exact Hk|apply Nat.eqb_refl]). congruence. }
        destruct (IH (k :: seen) (roots ++ [k]) (bs ++ new) bs') as (rs & A & B & C); try assumption.
        -- intros j. rewrite in_app_iff. cbn [In]. rewrite I. tauto.
        -- apply NoDup_rev in ND. rewrite <- (rev_involutive (roots ++ [k])), rev_app_distr. apply NoDup_rev. cbn. constructor; [rewrite <- in_rev; exact Hk|exact ND].
        -- apply sk_snoc with l; assumption.
        -- exists rs. split; [exact A|]. split; [|exact C]. intros j. rewrite B, in_app_iff. cbn [In]. split.
           ++ intros [[Hj|[<-|[]]]|(s0 & Hs0 & E0)]; [auto|right; exists s; split; [left; reflexivity|exact Es]|right; exists s0; split; [right; exact Hs0|exact E0]].
           ++ intros [Hj|(s0 & [<-|Hs0] & E0)]; [auto|left; right; left; congruence|right; eauto].
    + destruct (IH _ _ _ _ I ND SK H) as (rs & A & B & C). exists rs. split; [exact A|]. split; [|exact C].
      intros j. rewrite B. split; [intros [Hj|(s0 & Hs0 & E0)]; [auto|right; exists s0; split; [right; exact Hs0|exact E0]]|].
      intros [Hj|(s0 & [<-|Hs0] & E0)]; [auto|congruence|right; eauto].
Qed.
Theorem from_bones {T : Type} {N : Num T} (half : T) has_pbr big fuel (g : gdoc T) d bones : from_gltf half has_pbr big fuel g = Some (d, bones) ->
  exists roots, NoDup roots /\ (forall k, In k roots <-> exists s, In s (gdSkins g) /\ gsSkeleton s = Some k) /\ skeletons (gdNodes g) roots bones.
Proof.
  unfold from_gltf. destruct (all_some _ _); [|discriminate]. destruct (import_skins _ _ _ _ _) as [bs|] eqn:E; [|discriminate]. intros H. injection H as <- <-.
  destruct (skins_bones fuel (gdNodes g) (gdSkins g) [] [] [] bs ltac:(tauto) (NoDup_nil _) (sk_nil _) E) as (rs & A & B & C). exists rs. split; [exact A|]. split; [|exact C]. intros k. rewrite B. cbn [In]. tauto.
Qed.
