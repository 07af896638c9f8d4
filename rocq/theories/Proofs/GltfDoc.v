(** Objects, meshes, skins and materials of the exported glTF document. *)
From Coq Require Import String List ZArith Bool Lia Permutation Reals Lra Ascii.
From Verif.Model Require Import Num NumR Vec Matrix Mqo MqoDoc Mmd2Mqo Normals Mqo2Mmd Gltf Mqo2Gltf.
From Verif Require Import Spec.MqoSpec Spec.NormalsSpec Spec.Mqo2MmdSpec Spec.GltfSpec.
From Verif Require Import Proofs.MatrixLemmas Proofs.Mqo2MmdProofs Proofs.Mqo2MmdTop Proofs.Mmd2MqoProofs Proofs.MqoObjProofs Proofs.MqoDocProofs Proofs.Mmd2MqoFaces
  Proofs.NormalsProofs Proofs.GltfGraph Proofs.GltfMesh Proofs.GltfWeights Proofs.GltfTop.
Import ListNotations.
Local Open Scope Z_scope.
Local Open Scope list_scope.

Lemma all_some_spec {A B} (f : A -> option B) l : forall r, all_some f l = Some r -> Forall2 (fun x y => f x = Some y) l r.
Proof.
  induction l as [|x l IH]; intros r H; cbn in H; [injection H as <-; constructor|].
  destruct (f x) eqn:E; [|discriminate]. destruct (all_some f l); [|discriminate]. injection H as <-. constructor; auto.
Qed.

Section Doc.
Context {T : Type} {N : Num T}.

(** *** Faces *)

Lemma fixh_completed (o o1 : object T) : well_indexed o -> fixh_normals o = Some o1 ->
  o1 = set_faces o (oFaces o1) /\ Forall2 (completed o) (oFaces o) (oFaces o1).
Proof.
  intros W H.
  assert (V : valid_object o). { unfold valid_object. eapply Forall_impl; [|exact W]. cbn. intros f [Hf _]. exact Hf. }
  destruct (fixh_normals_spec o V) as (o' & ns & E1 & E2 & _ & F). rewrite H in E1. injection E1 as <-.
  destruct (smooth_normals_spec o V) as (ns' & E2' & L & Hn). rewrite E2 in E2'. injection E2' as <-.
  split.
  - unfold fixh_normals in H. destruct (fix_normals _ _); [|discriminate]. cbn in H. injection H as <-. reflexivity.
  - eapply forall2_weak_in; [|exact F]. cbn. intros f f' Hf (A1 & A2 & A3 & _ & A4). repeat split; try assumption. rewrite A4.
    destruct (complete f); [reflexivity|]. apply map_ext_in. intros v Hv. apply Hn.
    unfold valid_object in V. rewrite Forall_forall in V. specialize (V f Hf). rewrite Forall_forall in V. auto.
Qed.

Lemma completed_ok (o : object T) : well_indexed o -> forall fs, Forall2 (completed o) (oFaces o) fs ->
  Forall (MqoSpec.face_ok (length (oVerts o))) fs.
Proof.
  intros W fs F. unfold well_indexed in W. induction F as [|f f' l l' (A1 & A2 & A3 & A4) F IH]; [constructor|].
  inversion W as [|? ? [W1 W2] W3]; subst. constructor; [|apply IH; exact W3]. split; [rewrite A1; exact W1|]. split; [rewrite A3, A1; exact W2|].
  right. rewrite A4, A1. unfold complete. destruct (Nat.eqb_spec (length (fNormals f)) (length (fVerts f))); [assumption|apply map_length].
Qed.

Lemma triangles_valid nv (f : face T) gs : MqoSpec.face_ok nv f -> triangulates f gs ->
  Forall (fun g => length (fVerts g) = 3%nat /\ Forall (fun v => 0 <= v < Z.of_nat nv) (fVerts g)) gs.
Proof.
  intros (V & _) (_ & Hs & Hl). destruct (Nat.lt_ge_cases (length (fVerts f)) 3) as [L|L]; [rewrite (Hs L); constructor|].
  destruct (Hl L) as (ts & F & _). clear Hs Hl. induction F as [|g t gs ts ((x & y & z & E) & At & _) F IH]; [constructor|].
  constructor; [|exact IH]. rewrite E. split; [reflexivity|]. rewrite Forall_forall in V.
  destruct t as [[a b] c]. destruct At as [[_ Q]|(x' & y' & z' & H1 & H2 & H3 & Q)]; [congruence|].
  rewrite E in Q. injection Q as -> -> ->. repeat constructor; apply V; eapply nth_error_In; eassumption.
Qed.

(** *** One object *)

Variables (scale centi eps : T) (unlit : bool).

Lemma all_some_map {A B} (f : A -> option B) (l : list A) r i x : all_some f l = Some r -> nth_error l i = Some x -> exists y, nth_error r i = Some y /\ f x = Some y.
Proof.
  intros H Hi. apply all_some_spec in H. destruct (forall2_nth _ _ _ H _ _ Hi) as (y & Hy & E). eauto.
Qed.
Lemma all_some_zidx {A B} (f : A -> option B) (l : list A) r i x : all_some f l = Some r -> zidx l i = Some x -> exists y, zidx r i = Some y /\ f x = Some y.
Proof.
  intros H Hi. apply zidx_Some in Hi as [H0 Hi]. destruct (all_some_map _ _ _ _ _ H Hi) as (y & Hy & E). exists y. split; [apply zidx_Some; auto|exact E].
Qed.
Lemma zidx_map {A B} (f : A -> B) l i : zidx (map f l) i = option_map f (zidx l i).
Proof. unfold zidx. destruct (i <? 0); [reflexivity|]. apply nth_error_map. Qed.
Lemma zidx_seq n i : 0 <= i < Z.of_nat n -> zidx (map Z.of_nat (seq 0 n)) i = Some i.
Proof.
  intros H. apply zidx_Some. split; [lia|]. rewrite (map_nth_error Z.of_nat (Z.to_nat i) (seq 0 n) (d := Z.to_nat i)); [f_equal; lia|].
  assert (Q : nth_error (seq 0 n) (Z.to_nat i) = Some (nth (Z.to_nat i) (seq 0 n) 0%nat)) by (apply nth_error_nth'; rewrite seq_length; lia).
  rewrite Q, seq_nth by lia. reflexivity.
Qed.

Lemma init_inv (vs : list (vec3 T)) (inf : list (infl T)) skinned nrm : length inf = length vs ->
  inv scale vs inf skinned nrm (mkCS (map (v3scaled scale) vs) (map Z.of_nat (seq 0 (length (map (v3scaled scale) vs)))) (repeat v2zero (length (map (v3scaled scale) vs)))
    (repeat v3zero (length (map (v3scaled scale) vs))) (if skinned then inf else []) [] false []).
Proof.
  intros L. rewrite map_length. constructor; cbn.
  - rewrite !map_length, seq_length. reflexivity.
  - rewrite repeat_length, map_length. reflexivity.
  - rewrite repeat_length, map_length. reflexivity.
  - intros j x H. pose proof (zidx_bound _ _ _ H) as B. rewrite map_length, seq_length in B. rewrite zidx_seq in H by exact B. injection H as <-.
    destruct (zidx vs j) as [q|] eqn:E; [|apply zidx_None in E; lia]. exists q. split; [reflexivity|]. rewrite zidx_map, E. reflexivity.
  - intros j Hj. apply zidx_seq. exact Hj.
  - intros ? ? [].
  - intros ? ? [].
  - intros ->. rewrite map_length. split; [exact L|]. intros j x H. pose proof (zidx_bound _ _ _ H) as B. rewrite map_length, seq_length in B.
    rewrite zidx_seq in H by exact B. injection H as <-. reflexivity.
Qed.

Lemma morph_objects_of (objs : list (object T)) sets o morphs : morph_objects objs sets o = Some morphs -> morphs_of objs sets o morphs.
Proof.
  unfold morph_objects. destruct (all_some _ _) as [ts|] eqn:Ea; [|discriminate]. cbn. intros [= <-].
  exists (base_targets sets (oName o)), ts. split.
  - destruct (base_targets_of sets (oName o)) as [[H1 H2]|H]; [right|left]; auto.
  - split; [|reflexivity]. apply all_some_spec in Ea. eapply forall2_weak; [|exact Ea]. cbn. intros t x Hx.
    destruct (last_index _ objs) as [i|] eqn:Ei; [|discriminate]. eapply named_index; eassumption.
Qed.

Lemma convert_object_ok (objs : list (object T)) sets (o : object T) bones node_of morphs mm mesh joints :
  well_indexed o -> Z.of_nat (length (lists_of o bones)) <= 65536 -> morph_objects objs sets o = Some morphs ->
  convert_object scale centi eps unlit o bones node_of morphs mm = Some (mesh, joints) ->
  exports_mesh scale eps centi unlit objs sets bones mm o mesh /\ all_some node_of (list_bones o bones) = Some joints.
Proof.
  intros W HL HM H. unfold convert_object in H.
  destruct (fixh_normals o) as [o1|] eqn:E1; [|discriminate].
  destruct (fixh_completed o o1 W E1) as (So & C1). pose proof (completed_ok o W _ C1) as OK.
  assert (OK1 : Forall (MqoSpec.face_ok (length (oVerts o1))) (oFaces o1)) by (rewrite So; exact OK).
  destruct (triangulate_object_ok o1 OK1) as (gss & E2 & TR). rewrite E2 in H.
  set (tris := concat gss) in *. assert (Eo2 : set_faces o1 tris = set_faces o tris) by (rewrite So; reflexivity). rewrite Eo2 in H.
  destruct (get_weights centi (set_faces o tris) bones) as [[ids inf]|] eqn:E3; [|discriminate].
  pose proof (get_weights_proj _ _ _ _ _ E3) as (Eids & Linf & _). change (list_bones (set_faces o tris) bones) with (list_bones o bones) in Eids.
  change (length (oVerts (set_faces o tris))) with (length (oVerts o)) in Linf.
  set (skinned := negb (Nat.eqb (length ids) 0)) in *.
  change (oVerts (set_faces o tris)) with (oVerts o) in H. change (oFaces (set_faces o tris)) with tris in H.
  match type of H with context [conv_gfaces eps mm skinned tris ?s] => set (st0 := s) in * end.
  destruct (conv_gfaces eps mm skinned tris st0) as [st|] eqn:E4; [|discriminate].
  destruct (all_some _ morphs) as [targets|] eqn:E5; [|discriminate].
  destruct (all_some node_of ids) as [js|] eqn:E6; [|discriminate].
  injection H as <- <-. split; [|rewrite <- Eids; exact E6].
  assert (TV : Forall (fun g => length (fVerts g) = 3%nat /\ Forall (fun v => 0 <= v < Z.of_nat (length (oVerts o))) (fVerts g)) tris).
  { unfold tris. clear - TR OK. induction TR as [|f gs fs gss Ht TR IH]; cbn; [constructor|]. inversion OK; subst.
    apply Forall_app. split; [eapply triangles_valid; eassumption|apply IH; assumption]. }
  pose proof (init_inv (oVerts o) inf skinned (given_normal tris) Linf) as I0. fold st0 in I0.
  assert (P0 : prims_ok eps (given_normal tris) mm st0 []).
  { split; [constructor|]. split; [|intros ? ? []]. intros k. cbn. split; [intros []|intros (f & [] & _)]. }
  destruct (conv_gfaces_ok scale eps (oVerts o) inf skinned (given_normal tris) mm tris st0 st [] I0 P0) as (I & P1 & P2 & P3).
  { apply Forall_forall. intros f Hf i x m Hx Hm. exists f, i. auto. }
  { eapply Forall_impl; [|exact TV]. cbn. intros f [_ Hf]. exact Hf. }
  { eapply Forall_impl; [|exact TV]. cbn. intros f [Hf _]. exact Hf. }
  { exact E4. }
  cbn [app] in P2, P3.
  exists tris, (map (@ifSlots T) inf), morphs.
  split; [exists (oFaces o1), gss; split; [exact C1|split; [exact TR|reflexivity]]|].
  split; [apply morph_objects_of; exact HM|]. split; [rewrite map_length; exact Linf|]. split.
  { intros v s Hs. rewrite zidx_map in Hs. destruct (zidx inf v) as [x|] eqn:Ex; [|discriminate]. cbn in Hs. injection Hs as <-.
    pose proof (zidx_bound _ _ _ Ex) as B. rewrite Linf in B.
    destruct (weights_joints centi _ _ _ _ v x E3 HL Ex) as (J1 & J2). split; [exact J1|]. split; [exact J2|]. intros Hf.
    destruct (weights_few centi _ _ _ _ v E3 B HL Hf) as (x' & Hx' & Q). rewrite Ex in Hx'. injection Hx' as <-. exact Q. }
  cbn [gmName gmTargetNames gmPrims]. split; [reflexivity|]. split; [reflexivity|].
  rewrite map_map. cbn [gpMaterial].
  assert (Em : map (fun p : Z * list Z => Some (fst p)) (csPrims st) = map Some (map fst (csPrims st))) by (rewrite map_map; reflexivity).
  split; [rewrite Em; apply FinFun.Injective_map_NoDup; [intros a b Q; congruence|exact P1]|].
  split.
  { intros k. rewrite <- P2, Em. split; [|apply in_map]. intros Hi. apply in_map_iff in Hi as (k' & [= ->] & Hi). exact Hi. }
  split; [|eexists; eexists; split; [rewrite Forall_map; apply Forall_forall; intros [k is_] _; cbn [gpPos gpUV]; split; reflexivity|];
    intros us Hus; destruct (csVerts st) as [|v0 vr] eqn:Ev; [discriminate|]; destruct (csUseUV st); [|discriminate]; injection Hus as <-;
    eexists; split; [reflexivity|rewrite <- Ev; exact (i_uv_len _ _ _ _ _ _ I)]].
  rewrite Forall_map. apply Forall_forall. intros [k is_] Hp. cbn [fst snd].
  destruct (P3 k is_ Hp) as (trs & -> & F3).
  assert (Hne : exists f t, face_ok eps (given_normal tris) st f t).
  { assert (Hk : In k (map fst (csPrims st))) by (apply in_map_iff; exists (k, concat trs); auto).
    apply P2 in Hk as (f & Hf & Ef). assert (Hin : In f (filter (mapped mm k) tris)).
    { apply filter_In. split; [exact Hf|]. unfold mapped. rewrite Ef. apply Z.eqb_refl. }
    apply In_nth_error in Hin as (j & Hj). destruct (forall2_nth _ _ _ F3 _ _ Hj) as (t & _ & Hok). eauto. }
  assert (Hhas : match csVerts st with [] => false | _ :: _ => true end = true).
  { destruct Hne as (f & t & a & b & c & _ & (x & _ & Hs & _) & _). destruct (i_src _ _ _ _ _ _ I _ _ Hs) as (q & _ & Hv).
    destruct (csVerts st); [apply zidx_bound in Hv; cbn in Hv; lia|reflexivity]. }
  assert (Hvert : csVerts st <> []) by (destruct (csVerts st); [discriminate|congruence]).
  rewrite Hhas. cbn [andb].
  match goal with |- exports_faces _ _ _ _ _ _ _ _ ?p /\ _ => set (p0 := p) end.
  split.
  - exists k, trs. split; [reflexivity|]. split; [reflexivity|].
    eapply forall2_weak; [|exact F3]. intros f t (a & b & c & -> & Ca & Cb & Cc). exists a, b, c. split; [reflexivity|].
    assert (CK : forall i id, corner_ok eps (given_normal tris) st f i id ->
      exports_corner scale eps o (map (@ifSlots T) inf) morphs (given_normal tris) p0 f i id).
    { intros i id (x & Hx & Hs & Hu & m & Hm & Hn). exists x. split; [exact Hx|]. split; [|split].
      - destruct (i_src _ _ _ _ _ _ I _ _ Hs) as (q & Hq & Hv). exists (csVerts st), q. split; [reflexivity|]. split; [exact Hq|]. split; [exact Hv|]. split.
        + unfold p0. cbn [gpTargets]. apply all_some_spec in E5. eapply forall2_weak; [|exact E5]. cbn. intros mo offs Ho.
          destruct (all_some_zidx _ _ _ _ _ Ho Hs) as (d & Hd & Et). unfold target_offset in Et.
          destruct (zidx (oVerts mo) x) as [mq|] eqn:Emq; [|discriminate]. 
          destruct (zidx (csVerts st) x) as [p|] eqn:Ep; [|discriminate]. injection Et as <-.
          exists mq. split; [reflexivity|]. rewrite Hd. f_equal.
          assert (Hxi : zidx (csSrc st) x = Some x).
          { apply (i_first _ _ _ _ _ _ I). apply zidx_bound in Hq. exact Hq. }
          destruct (i_src _ _ _ _ _ _ I _ _ Hxi) as (q' & Hq' & Hv'). rewrite Hq in Hq'. injection Hq' as <-. rewrite Ep in Hv'. injection Hv' as ->. reflexivity.
        + unfold p0. cbn [gpSkin]. intros sk Hsk. destruct skinned eqn:Esk; [|discriminate]. injection Hsk as <-.
          destruct (i_skin _ _ _ _ _ _ I eq_refl) as [K1 K2]. specialize (K2 _ _ Hs). rewrite !zidx_map, K2.
          destruct (zidx inf x) as [s|] eqn:Es; [exists (ifSlots s); auto|]. exfalso. apply zidx_None in Es. rewrite Linf in Es. apply zidx_bound in Hq. lia.
      - intros Ne. destruct (Hu Ne) as (HU & u & t & Hu1 & _ & Ht & Hc). exists (csUV st), u, t. unfold p0. cbn [gpUV]. rewrite HU. auto.
      - intros ns Hns. unfold p0 in Hns. cbn [gpNormals] in Hns. destruct (_ && _); [|discriminate]. injection Hns as <-. eauto. }
    auto.
  - unfold p0. cbn [gpSkin gpNormals]. split.
    + unfold skinned. rewrite Eids, list_bones_length. destruct (lists_of o bones); cbn; split; congruence.
    + destruct (Z.ltb_spec 0 (oShading o)), unlit; cbn; split; try congruence; try (intros [?|?]; [lia|congruence]); try (intros _; left; lia); intros _; right; reflexivity.
Qed.

(** *** All objects *)

Variables (objs : list (object T)) (sets : list target_list) (bones : list (bone T)) (base : nat) (mm : Z -> option Z).

Definition node_ok (ms : list (gmesh T)) (ss : list (gskin T)) (o : object T) (n : gnode T) : Prop :=
  gnName n = oName o /\ gnTrans n = v3zero /\
  if oVisible o
  then exists morphs mesh joints, morph_objects objs sets o = Some morphs /\
         convert_object scale centi eps unlit o bones (bone_node base bones) morphs mm = Some (mesh, joints) /\
         (gmPrims mesh = [] /\ gnMesh n = None \/ gmPrims mesh <> [] /\ exists mi, gnMesh n = Some mi /\ nth_error ms mi = Some mesh) /\
         (joints = [] /\ gnSkin n = None \/
          joints <> [] /\ exists si s, gnSkin n = Some si /\ nth_error ss si = Some s /\ make_skin scale (fun j => nth_error bones (j - base)) joints = Some s)
  else gnMesh n = None /\ gnSkin n = None.

Lemma nth_app_some {A} (l l' : list A) i x : nth_error l i = Some x -> nth_error (l ++ l') i = Some x.
Proof. intros H. rewrite nth_error_app1; [exact H|]. apply nth_error_Some. congruence. Qed.
Lemma node_ok_ext ms ss ms' ss' o n : (exists l, ms' = ms ++ l) -> (exists l, ss' = ss ++ l) -> node_ok ms ss o n -> node_ok ms' ss' o n.
Proof.
  intros (lm & ->) (ls & ->) (A1 & A2 & A3). split; [exact A1|]. split; [exact A2|]. destruct (oVisible o); [|exact A3].
  destruct A3 as (morphs & mesh & joints & B1 & B2 & B3 & B4). exists morphs, mesh, joints. split; [exact B1|]. split; [exact B2|]. split.
  - destruct B3 as [B3|(B3 & mi & B5 & B6)]; [left; exact B3|right]. split; [exact B3|]. exists mi. split; [exact B5|]. apply nth_app_some. exact B6.
  - destruct B4 as [B4|(B4 & si & s & B5 & B6 & B7)]; [left; exact B4|right]. split; [exact B4|]. exists si, s. split; [exact B5|]. split; [apply nth_app_some; exact B6|exact B7].
Qed.
(** Where meshes and skins come from. *)
Definition mesh_from (os : list (object T)) (mesh : gmesh T) : Prop :=
  exists o morphs joints, In o os /\ oVisible o = true /\ morph_objects objs sets o = Some morphs /\
    convert_object scale centi eps unlit o bones (bone_node base bones) morphs mm = Some (mesh, joints).
Definition skin_from (os : list (object T)) (s : gskin T) : Prop :=
  exists o morphs mesh joints, In o os /\ oVisible o = true /\
    convert_object scale centi eps unlit o bones (bone_node base bones) morphs mm = Some (mesh, joints) /\
    make_skin scale (fun j => nth_error bones (j - base)) joints = Some s.

Lemma conv_objects_spec os : forall ms ss ns ms' ss',
  conv_objects scale centi eps unlit objs sets bones base mm os ms ss = Some (ns, ms', ss') ->
  (exists l, ms' = ms ++ l /\ Forall (mesh_from os) l) /\ (exists l, ss' = ss ++ l /\ Forall (skin_from os) l) /\ Forall2 (node_ok ms' ss') os ns.
Proof.
  induction os as [|o r IH]; intros ms ss ns ms' ss' H; cbn [conv_objects] in H.
  - injection H as <- <- <-. split; [exists []; split; [symmetry; apply app_nil_r|constructor]|]. split; [exists []; split; [symmetry; apply app_nil_r|constructor]|constructor].
  - destruct (morph_objects objs sets o) as [morphs|] eqn:Em; [|discriminate].
    assert (MF : forall x, mesh_from r x -> mesh_from (o :: r) x).
    { intros x (o' & m' & j' & A & B). exists o', m', j'. split; [right; exact A|exact B]. }
    assert (SF : forall x, skin_from r x -> skin_from (o :: r) x).
    { intros x (o' & m' & g' & j' & A & B). exists o', m', g', j'. split; [right; exact A|exact B]. }
    assert (Next : forall n ms1 ss1, 
       (exists l, ms1 = ms ++ l /\ Forall (mesh_from (o :: r)) l) -> (exists l, ss1 = ss ++ l /\ Forall (skin_from (o :: r)) l) -> node_ok ms1 ss1 o n ->
       match conv_objects scale centi eps unlit objs sets bones base mm r ms1 ss1 with
            | Some (ns, ms', ss') => Some (n :: ns, ms', ss') | None => None end = Some (ns, ms', ss') ->
       (exists l, ms' = ms ++ l /\ Forall (mesh_from (o :: r)) l) /\ (exists l, ss' = ss ++ l /\ Forall (skin_from (o :: r)) l) /\ Forall2 (node_ok ms' ss') (o :: r) ns).
    { intros n ms1 ss1 (l1 & -> & F1) (l2 & -> & F2) Hn Hc.
      destruct (conv_objects scale centi eps unlit objs sets bones base mm r (ms ++ l1) (ss ++ l2)) as [[[a b] c]|] eqn:Er; [|discriminate].
      injection Hc as <- <- <-. apply IH in Er as ((l3 & -> & F3) & (l4 & -> & F4) & F).
      split; [exists (l1 ++ l3); split; [symmetry; apply app_assoc|]; apply Forall_app; split; [exact F1|]; eapply Forall_impl; [|exact F3]; exact MF|].
      split; [exists (l2 ++ l4); split; [symmetry; apply app_assoc|]; apply Forall_app; split; [exact F2|]; eapply Forall_impl; [|exact F4]; exact SF|].
      constructor; [|exact F]. eapply node_ok_ext; [| |exact Hn]; eexists; reflexivity. }
    destruct (oVisible o) eqn:Ev.
    2:{ eapply Next; [exists []; split; [symmetry; apply app_nil_r|constructor]|exists []; split; [symmetry; apply app_nil_r|constructor]| |exact H].
        split; [reflexivity|]. split; [reflexivity|]. rewrite Ev. split; reflexivity. }
    destruct (convert_object scale centi eps unlit o bones (bone_node base bones) morphs mm) as [[mesh joints]|] eqn:Ec; [|discriminate].
    cbv zeta in H.
    set (ms1 := if negb (length (gmPrims mesh) =? 0)%nat then ms ++ [mesh] else ms) in *.
    set (mi := if negb (length (gmPrims mesh) =? 0)%nat then Some (length ms) else None) in *.
    assert (M1 : exists l, ms1 = ms ++ l /\ Forall (mesh_from (o :: r)) l).
    { unfold ms1. destruct (negb _); [exists [mesh]|exists []]; (split; [try (symmetry; apply app_nil_r); reflexivity|]); [|constructor].
      constructor; [|constructor]. exists o, morphs, joints. repeat split; try assumption. left; reflexivity. }
    assert (M2 : gmPrims mesh = [] /\ mi = None \/ gmPrims mesh <> [] /\ exists k, mi = Some k /\ nth_error ms1 k = Some mesh).
    { unfold mi, ms1. destruct (gmPrims mesh); cbn; [left; auto|right]. split; [discriminate|]. exists (length ms). split; [reflexivity|].
      rewrite nth_error_app2, Nat.sub_diag by lia. reflexivity. }
    destruct (negb (length joints =? 0)%nat) eqn:Ej.
    + destruct (make_skin scale (fun j => nth_error bones (j - base)) joints) as [s|] eqn:Es; [|discriminate].
      eapply Next; [exact M1| | |exact H].
      * exists [s]. split; [reflexivity|]. constructor; [|constructor]. exists o, morphs, mesh, joints. repeat split; try assumption. left; reflexivity.
      * split; [reflexivity|]. split; [reflexivity|]. rewrite Ev. exists morphs, mesh, joints. split; [exact Em|]. split; [exact Ec|]. split; [exact M2|].
        right. split; [destruct joints; [discriminate|congruence]|]. exists (length ss), s. split; [reflexivity|].
        split; [rewrite nth_error_app2, Nat.sub_diag by lia; reflexivity|exact Es].
    + eapply Next; [exact M1|exists []; split; [symmetry; apply app_nil_r|constructor]| |exact H].
      split; [reflexivity|]. split; [reflexivity|]. rewrite Ev. exists morphs, mesh, joints. split; [exact Em|]. split; [exact Ec|]. split; [exact M2|].
      left. split; [|reflexivity]. destruct joints; [reflexivity|discriminate].
Qed.

(** *** Skins *)

Lemma make_skin_spec joints s : make_skin scale (fun j => nth_error bones (j - base)) joints = Some s ->
  gsJoints s = joints /\ gsSkeleton s = None /\
  Forall2 (fun j m => exists b, nth_error bones (j - base) = Some b /\ m = inverse_bind scale (bPos b)) joints (gsInverse s).
Proof.
  unfold make_skin. destruct (all_some _ joints) as [l|] eqn:E; [|discriminate]. cbn. intros [= <-]. split; [reflexivity|]. split; [reflexivity|]. cbn.
  apply all_some_spec in E. eapply forall2_weak; [|exact E]. cbn. intros j m H. destruct (nth_error bones (j - base)) as [b|]; [|discriminate].
  cbn in H. injection H as <-. eauto.
Qed.

Lemma joints_of (o : object T) joints : NoDup (map bID bones) -> all_some (bone_node base bones) (list_bones o bones) = Some joints ->
  Forall2 (fun b j => exists i, nth_error bones i = Some b /\ j = (base + i)%nat) (list_owners o bones) joints.
Proof.
  intros HN H. assert (Eq : list_bones o bones = map bID (list_owners o bones)).
  { unfold list_bones, list_owners. clear. induction bones as [|b r IH]; [reflexivity|]. cbn [flat_map]. rewrite map_app, IH, map_map. reflexivity. }
  rewrite Eq in H. apply all_some_spec in H. apply (proj1 (forall2_map_l _ _ _ _)) in H.
  assert (Hin : forall b, In b (list_owners o bones) -> In b bones).
  { intros b Hb. unfold list_owners in Hb. apply in_flat_map in Hb as (b' & Hb' & Hx). apply in_map_iff in Hx as (x & <- & _). exact Hb'. }
  eapply forall2_weak_in; [|exact H]. cbn. intros b j Hb Hj. apply Hin in Hb. apply In_nth_error in Hb as (i & Hi). exists i. split; [exact Hi|].
  unfold bone_node in Hj. rewrite (bone_by_id_nth bones i b HN Hi) in Hj. cbn in Hj. injection Hj as <-. reflexivity.
Qed.
End Doc.

(** *** Material numbers *)

Section Mats.
Context {T : Type} {N : Num T}.

Lemma append_length a b : String.length (String.append a b) = (String.length a + String.length b)%nat.
Proof. induction a; cbn; [reflexivity|]. f_equal. assumption. Qed.
Lemma substring_split n : forall m s, (n + m)%nat = String.length s -> s = String.append (substring 0 n s) (substring n m s).
Proof.
  induction n as [|n IH]; intros m s H.
  - assert (Q : forall s, substring 0 (String.length s) s = s) by (clear; induction s; cbn; congruence).
    cbn in H. subst m. rewrite Q. destruct s; reflexivity.
  - destruct s as [|c s]; [discriminate|]. cbn. f_equal. apply IH. cbn in H. lia.
Qed.
Lemma substring_all s : substring 0 (String.length s) s = s.
Proof. induction s; cbn; congruence. Qed.
Lemma substring_tail a b : substring (String.length a) (String.length b) (String.append a b) = b.
Proof. induction a; cbn; [apply substring_all|assumption]. Qed.
Lemma has_suffix_spec suf s : has_suffix suf s = true <-> exists a, s = String.append a suf.
Proof.
  unfold has_suffix. cbv zeta. split.
  - intros H. apply andb_true_iff in H as [H1 H2]. apply Nat.leb_le in H1. apply String.eqb_eq in H2.
    exists (substring 0 (String.length s - String.length suf) s). pose proof (substring_split (String.length s - String.length suf) (String.length suf) s ltac:(lia)) as Q. rewrite H2 in Q. exact Q.
  - intros (a & ->). rewrite append_length. replace (String.length a + String.length suf - String.length suf)%nat with (String.length a) by lia.
    rewrite substring_tail, String.eqb_refl, andb_true_r. apply Nat.leb_le. lia.
Qed.
Lemma prefix_spec p s : String.prefix p s = true <-> exists b, s = String.append p b.
Proof.
  revert s. induction p as [|c p IH]; intros s; [split; [intros _; exists s; destruct s; reflexivity|destruct s; reflexivity]|].
  destruct s as [|c' s]; [split; [discriminate|intros (b & H); discriminate]|].
  cbn [String.prefix]. destruct (ascii_dec c c') as [->|Ne].
  - rewrite IH. split; intros (b & H); exists b; cbn in *; congruence.
  - split; [discriminate|]. intros (b & H). cbn in H. congruence.
Qed.

Lemma material_used_spec (os : list (object T)) i : material_used os i = true <-> used os i.
Proof.
  unfold material_used, used. rewrite existsb_exists. split.
  - intros (o & Ho & H). apply andb_true_iff in H as [Hv H]. apply existsb_exists in H as (f & Hf & E). apply Z.eqb_eq in E. exists o, f. auto.
  - intros (o & f & Ho & Hv & Hf & E). exists o. split; [exact Ho|]. rewrite Hv. cbn. apply existsb_exists. exists f. split; [exact Hf|]. apply Z.eqb_eq. exact E.
Qed.
Lemma material_kept_spec (os : list (object T)) i name : material_kept os i name = true <-> used os i /\ ~ left_out name.
Proof.
  unfold material_kept, left_out. rewrite !andb_true_iff, !negb_true_iff, material_used_spec, <- !not_true_iff_false, has_suffix_spec, prefix_spec. tauto.
Qed.

Definition kf (os : list (object T)) (p : nat * material T) : bool := material_kept os (Z.of_nat (fst p)) (mtName (snd p)).
Lemma material_map_below (os : list (object T)) names : forall i k j, j < i -> assoc (material_map os i k names) j = None.
Proof.
  induction names as [|nm r IH]; intros i k j H; cbn [material_map]; [reflexivity|]. destruct (material_kept os i nm).
  - cbn. destruct (Z.eqb_spec i j); [lia|]. apply IH. lia.
  - apply IH. lia.
Qed.
Lemma material_map_at (os : list (object T)) mats : forall i k n,
  assoc (material_map os (Z.of_nat i) k (map (@mtName T) mats)) (Z.of_nat (i + n)) =
  match nth_error mats n with
  | Some m => if material_kept os (Z.of_nat (i + n)) (mtName m)
              then Some (k + Z.of_nat (length (filter (kf os) (firstn n (combine (seq i (length mats)) mats))))) else None
  | None => None
  end.
Proof.
  induction mats as [|m r IH]; intros i k n; cbn [map material_map length seq combine]; [destruct n; reflexivity|].
  assert (Es : Z.of_nat i + 1 = Z.of_nat (S i)) by lia.
  destruct n as [|n].
  - rewrite Nat.add_0_r. cbn [nth_error firstn filter length]. destruct (material_kept os (Z.of_nat i) (mtName m)) eqn:K.
    + cbn. rewrite Z.eqb_refl. f_equal. lia.
    + apply material_map_below. lia.
  - cbn [nth_error firstn filter]. replace (i + S n)%nat with (S i + n)%nat by lia. unfold kf at 1. cbn [fst snd].
    destruct (material_kept os (Z.of_nat i) (mtName m)) eqn:K.
    + cbn [assoc fst snd]. destruct (Z.eqb_spec (Z.of_nat i) (Z.of_nat (S i + n))); [lia|]. rewrite Es, IH.
      destruct (nth_error r n) as [m'|]; [|reflexivity]. destruct (material_kept os (Z.of_nat (S i + n)) (mtName m')); [|reflexivity].
      f_equal. cbn [length]. lia.
    + rewrite Es, IH. reflexivity.
Qed.

Lemma filter_position {A} (p : A -> bool) l : forall i x, nth_error l i = Some x -> p x = true ->
  nth_error (filter p l) (length (filter p (firstn i l))) = Some x.
Proof.
  induction l as [|a r IH]; intros [|i] x H Hp; cbn in *; try discriminate.
  - injection H as ->. rewrite Hp. reflexivity.
  - destruct (p a); cbn; apply IH; assumption.
Qed.
Lemma filter_position_inv {A} (p : A -> bool) l : forall k, (k < length (filter p l))%nat ->
  exists i x, nth_error l i = Some x /\ p x = true /\ length (filter p (firstn i l)) = k.
Proof.
  induction l as [|a r IH]; intros k H; cbn in H; [lia|]. destruct (p a) eqn:Ea.
  - destruct k as [|k].
    + exists 0%nat, a. auto.
    + destruct (IH k) as (i & x & H1 & H2 & H3); [cbn in H; lia|]. exists (S i), x. cbn. rewrite Ea. cbn. auto.
  - destruct (IH k H) as (i & x & H1 & H2 & H3). exists (S i), x. cbn. rewrite Ea. auto.
Qed.
Lemma filter_firstn_lt {A} (p : A -> bool) l : forall i j x, (i < j)%nat -> nth_error l i = Some x -> p x = true ->
  (length (filter p (firstn i l)) < length (filter p (firstn j l)))%nat.
Proof.
  induction l as [|a r IH]; intros i j x Hij H Hp; [destruct i; discriminate|]. destruct j as [|j]; [lia|]. destruct i as [|i]; cbn in *.
  - injection H as ->. rewrite Hp. cbn. lia.
  - destruct (p a); cbn; [apply -> Nat.succ_lt_mono|]; eapply IH; try eassumption; lia.
Qed.

Lemma renumbers_ok (os : list (object T)) (mats : list (material T)) unlit opaque99 rough tex_alpha :
  let mm := material_map os 0 0 (map (@mtName T) mats) in
  renumbers os mats (map (fun p => convert_material unlit opaque99 rough tex_alpha (snd p))
                 (filter (fun p => match assoc mm (Z.of_nat (fst p)) with Some _ => true | None => false end) (numbered mats))) (assoc mm).
Proof.
  intros mm.
  assert (At : forall n, assoc mm (Z.of_nat n) =
     match nth_error mats n with
     | Some m => if material_kept os (Z.of_nat n) (mtName m) then Some (Z.of_nat (length (filter (kf os) (firstn n (numbered mats))))) else None
     | None => None end).
  { intros n. pose proof (material_map_at os mats 0 0 n) as H. cbn [Nat.add] in H. unfold mm. etransitivity; [exact H|].
    destruct (nth_error mats n); reflexivity. }
  assert (Ef : filter (fun p => match assoc mm (Z.of_nat (fst p)) with Some _ => true | None => false end) (numbered mats) = filter (kf os) (numbered mats)).
  { apply filter_ext_in. intros [n m] Hin. cbn [fst]. rewrite At. apply In_nth_error in Hin as (i & Hi).
    assert (Hm : nth_error mats n = Some m /\ i = n).
    { destruct (nth_error mats i) as [m'|] eqn:E.
      - rewrite (numbered_nth _ _ _ E) in Hi. injection Hi as <- <-. auto.
      - exfalso. apply nth_error_None in E. assert (X : nth_error (numbered mats) i <> None) by congruence. apply nth_error_Some in X. rewrite numbered_length in X. lia. }
    destruct Hm as [-> ->]. unfold kf. cbn [fst snd]. destruct (material_kept os (Z.of_nat n) (mtName m)); reflexivity. }
  rewrite Ef.
  assert (Neg : forall j, j < 0 -> assoc mm j = None) by (intros j Hj; apply material_map_below; exact Hj).
  assert (Inv : forall i k, assoc mm i = Some k -> exists n m, i = Z.of_nat n /\ nth_error mats n = Some m /\ material_kept os i (mtName m) = true /\
            k = Z.of_nat (length (filter (kf os) (firstn n (numbered mats))))).
  { intros i k H. destruct (Z.lt_ge_cases i 0) as [L|L]; [rewrite (Neg i L) in H; discriminate|].
    rewrite <- (Z2Nat.id i L), At in H. exists (Z.to_nat i). destruct (nth_error mats (Z.to_nat i)) as [m|] eqn:E; [|discriminate].
    rewrite (Z2Nat.id i L) in H. destruct (material_kept os i (mtName m)) eqn:K; [|discriminate]. injection H as <-.
    exists m. split; [lia|]. auto. }
  assert (ZN : forall n (m : material T), nth_error mats n = Some m -> zidx mats (Z.of_nat n) = Some m).
  { intros n m H. apply zidx_Some. rewrite Nat2Z.id. split; [lia|exact H]. }
  split; [|split; [|split]].
  - intros i k H. apply Inv in H as (n & m & -> & Hm & K & ->).
    pose proof (filter_position (kf os) (numbered mats) n (n, m) (numbered_nth _ _ _ Hm) K) as P.
    exists m, (convert_material unlit opaque99 rough tex_alpha m). split; [apply ZN; exact Hm|]. split.
    + apply zidx_Some. rewrite Nat2Z.id. split; [lia|]. rewrite (map_nth_error _ _ _ P). reflexivity.
    + unfold convert_material. destruct (mtEx2 m) as [e|]; [destruct (String.eqb (exName e) "glTF")|]; repeat split.
  - intros i. split.
    + intros (k & H). apply Inv in H as (n & m & -> & Hm & K & ->). apply material_kept_spec in K. exists m. split; [apply ZN; exact Hm|exact K].
    + intros (m & Hm & K). apply material_kept_spec in K. apply zidx_Some in Hm as [H0 Hm].
      exists (Z.of_nat (length (filter (kf os) (firstn (Z.to_nat i) (numbered mats))))).
      rewrite <- (Z2Nat.id i H0) at 1. rewrite At, Hm, (Z2Nat.id i H0), K. reflexivity.
  - intros i j k l Hi Hj L. apply Inv in Hi as (n & m & -> & Hm & K & ->). apply Inv in Hj as (n' & m' & -> & Hm' & K' & ->).
    apply inj_lt. eapply filter_firstn_lt with (x := (n, m)); [lia|apply numbered_nth; exact Hm|exact K].
  - intros k Hk. rewrite map_length in Hk. destruct (filter_position_inv (kf os) (numbered mats) (Z.to_nat k) ltac:(lia)) as (i & [n m] & H1 & H2 & H3).
    assert (Hm : nth_error mats i = Some m /\ n = i).
    { destruct (nth_error mats i) as [m'|] eqn:E.
      - rewrite (numbered_nth _ _ _ E) in H1. injection H1 as <- <-. auto.
      - exfalso. apply nth_error_None in E. assert (X : nth_error (numbered mats) i <> None) by congruence. apply nth_error_Some in X. rewrite numbered_length in X. lia. }
    destruct Hm as [Hm ->]. exists (Z.of_nat i). rewrite At, Hm. unfold kf in H2. cbn [fst snd] in H2. rewrite H2. f_equal. rewrite H3. lia.
Qed.
End Mats.

(** *** The document *)

Section Main.
Context {T : Type} {N : Num T}.
Variables (scale centi eps : T) (ign unlit : bool) (opaque99 rough : T) (tex_alpha : material T -> bool).
Variables (d : document T) (bones : list (bone T)) (sets : list target_list) (g : gdoc T).
Hypothesis E : to_gltf scale centi eps ign unlit opaque99 rough tex_alpha d bones sets = Some g.
Hypothesis HB : NoDup (map bID bones).
Notation os := (os ign d sets).

Hypothesis W : Forall well_indexed (dObjects d).
Lemma os_indexed : Forall well_indexed os.
Proof.
  unfold GltfTop.os, exported_objects. apply Forall_forall. intros o Ho. apply filter_In in Ho as [Ho _]. revert o Ho. apply Forall_forall.
  unfold objs. apply fix_ids_forall; [|exact W]. intros o u Ho. exact Ho.
Qed.
Definition few_lists (o : object T) : Prop := Z.of_nat (length (lists_of o bones)) <= 65536.

Theorem exports_all : Forall few_lists os -> exists mmap, renumbers os (dMaterials d) (gdMats g) mmap /\
  forall i o, nth_error os i = Some o -> exists n, nth_error (gdNodes g) i = Some n /\
    exports_object scale eps centi unlit (fix_ids 0 (dObjects d)) sets bones (length os) mmap g o n.
Proof.
  intros HF. destruct (conv_inv _ _ _ _ _ _ _ _ _ _ _ _ E) as (ts & g0 & ns & ms & ss & gr & H1 & H2 & H3 & H4 & H5 & H6 & H7 & H8).
  exists (assoc (mmap ign d sets)). split; [rewrite H8; apply renumbers_ok|].
  intros i o Hi. pose proof H2 as H2'. apply conv_objects_spec in H2' as (_ & _ & F). destruct (forall2_nth _ _ _ F _ _ Hi) as (n & Hn & (A1 & A2 & A3)).
  assert (Hn' : nth_error (ns ++ bone_nodes bones ts) i = Some n) by (apply nth_app_some; exact Hn).
  exists (with_children gr (i, n)). split; [rewrite H4; apply (map_nth_error _ _ _ (numbered_nth _ _ _ Hn'))|].
  split; [exact A1|]. split; [exact A2|]. split; [intros Hv; rewrite Hv in A3; exact A3|]. intros Hv. rewrite Hv in A3.
  destruct A3 as (morphs & mesh & joints & B1 & B2 & B3 & B4).
  pose proof os_indexed as OI. rewrite Forall_forall in OI, HF. pose proof (nth_error_In _ _ Hi) as Ho.
  destruct (convert_object_ok scale centi eps unlit _ sets o bones _ morphs _ mesh joints (OI o Ho) (HF o Ho) B1 B2) as (M1 & M2).
  pose proof (joints_of (length os) o joints HB M2) as JO || pose proof (joints_of bones (length os) o joints HB M2) as JO.
  pose proof (list_bones_length o bones) as LB. pose proof (forall2_len _ _ _ (all_some_spec _ _ _ M2)) as LJ.
  split.
  - exists mesh. split; [exact M1|]. rewrite H6. exact B3.
  - destruct B4 as [[B4 B5]|(B4 & si & s & B5 & B6 & B7)].
    + left. split; [|exact B5]. subst joints. cbn in LJ. destruct (lists_of o bones); [reflexivity|cbn in LB; lia].
    + right. split; [intros Q; rewrite Q in LB; cbn in LB; destruct joints; [congruence|cbn in LJ; lia]|].
      exists si, s. rewrite H7. split; [exact B5|]. split; [exact B6|]. apply make_skin_spec in B7 as (B7 & _). unfold exports_skin. rewrite B7. exact JO.
Qed.

(** Every mesh is that of an object. *)
Theorem meshes_from : Forall few_lists os -> exists mmap, renumbers os (dMaterials d) (gdMats g) mmap /\
  Forall (fun mesh => exists o, In o os /\ oVisible o = true /\ exports_mesh scale eps centi unlit (fix_ids 0 (dObjects d)) sets bones mmap o mesh) (gdMeshes g).
Proof.
  intros HF. destruct (conv_inv _ _ _ _ _ _ _ _ _ _ _ _ E) as (ts & g0 & ns & ms & ss & gr & H1 & H2 & H3 & H4 & H5 & H6 & H7 & H8).
  exists (assoc (mmap ign d sets)). split; [rewrite H8; apply renumbers_ok|].
  apply conv_objects_spec in H2 as ((l & -> & F) & _). rewrite H6. cbn [app]. eapply Forall_impl; [|exact F].
  intros mesh (o & morphs & joints & Ho & Hv & B1 & B2). exists o. split; [exact Ho|]. split; [exact Hv|].
  pose proof os_indexed as OI. rewrite Forall_forall in OI, HF.
  exact (proj1 (convert_object_ok scale centi eps unlit _ sets o bones _ morphs _ mesh joints (OI o Ho) (HF o Ho) B1 B2)).
Qed.

(** Joints of skins are bones. *)
Lemma skins_from : Forall (fun s => Forall2 (fun j m => exists k b, j = (length os + k)%nat /\ nth_error bones k = Some b /\ m = inverse_bind scale (bPos b))
   (gsJoints s) (gsInverse s)) (gdSkins g).
Proof.
  destruct (conv_inv _ _ _ _ _ _ _ _ _ _ _ _ E) as (ts & g0 & ns & ms & ss & gr & H1 & H2 & H3 & H4 & H5 & H6 & H7 & H8).
  apply conv_objects_spec in H2 as (_ & (l & -> & F) & _). rewrite H7. cbn [app]. eapply Forall_impl; [|exact F].
  intros s (o & morphs & mesh & joints & Ho & Hv & B1 & B2). apply make_skin_spec in B2 as (-> & _ & F2).
  assert (HJ : Forall (fun j => (length os <= j)%nat) joints).
  { unfold convert_object in B1. destruct (fixh_normals o); [|discriminate]. destruct (triangulate_object o0); [|discriminate].
    destruct (get_weights centi o1 bones) as [[ids inf]|]; [|discriminate]. destruct (conv_gfaces _ _ _ _ _); [|discriminate].
    destruct (all_some _ morphs); [|discriminate]. destruct (all_some (bone_node (length os) bones) ids) as [js|] eqn:Ej; [|discriminate].
    injection B1 as _ <-. apply all_some_spec in Ej. clear - Ej. induction Ej as [|x y l l' H _ IH]; constructor; [|exact IH].
    unfold bone_node in H. destruct (bone_by_id bones x); [|discriminate]. cbn in H. injection H as <-. lia. }
  eapply forall2_weak_in; [|exact F2]. cbn. intros j m Hj (b & Hb & ->). rewrite Forall_forall in HJ. specialize (HJ j Hj).
  exists (j - length os)%nat, b. split; [lia|]. auto.
Qed.
End Main.

(** The rest pose: world matrix times inverse bind matrix. *)
Section Rest.
Local Open Scope R_scope.
Variables (scale centi eps : R) (ign unlit : bool) (opaque99 rough : R) (tex_alpha : material R -> bool).

Lemma translate_inverse (q p : vec3 R) : q = at_scale scale p -> mat_mul (mat_translate (vx q) (vy q) (vz q)) (inverse_bind scale p) = mat_id.
Proof.
  intros ->. destruct p as [x y z]. unfold inverse_bind, mat_translate, at_scale, mat_mul, mat_id; mproj; rnum; comps; ring.
Qed.
Theorem rest_pose (d : document R) bones sets g : to_gltf scale centi eps ign unlit opaque99 rough tex_alpha d bones sets = Some g -> proper_bones bones ->
  Forall (fun s => Forall2 (fun j m => exists q, world_pos g j q /\ mat_mul (mat_translate (vx q) (vy q) (vz q)) m = mat_id) (gsJoints s) (gsInverse s)) (gdSkins g).
Proof.
  intros E HB. eapply Forall_impl; [|exact (skins_from _ _ _ _ _ _ _ _ _ _ _ _ E)]. intros s F. eapply forall2_weak; [|exact F].
  cbn. intros j m (k & b & -> & Hb & ->). exists (at_scale scale (bPos b)). split.
  - eapply joint_world; eassumption.
  - apply translate_inverse. reflexivity.
Qed.
End Rest.
