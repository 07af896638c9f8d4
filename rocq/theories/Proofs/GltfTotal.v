(** The glTF export does not crash. *)
From Coq Require Import String List ZArith Bool Lia Permutation.
From Verif.Model Require Import Num Vec Matrix Mqo MqoDoc Mmd2Mqo Normals Mqo2Mmd Gltf Mqo2Gltf.
From Verif Require Import Spec.MqoSpec Spec.NormalsSpec Spec.Mqo2MmdSpec Spec.GltfSpec.
From Verif Require Import Proofs.Mqo2MmdProofs Proofs.Mqo2MmdTop Proofs.Mmd2MqoProofs Proofs.MqoObjProofs Proofs.MqoDocProofs Proofs.Mmd2MqoFaces
  Proofs.NormalsProofs Proofs.GltfGraph Proofs.GltfMesh Proofs.GltfWeights Proofs.GltfTop Proofs.GltfDoc.
Import ListNotations.
Local Open Scope Z_scope.
Local Open Scope list_scope.

Lemma all_some_total {A B} (f : A -> option B) l : (forall x, In x l -> exists y, f x = Some y) -> exists r, all_some f l = Some r.
Proof.
  induction l as [|x l IH]; intros H; [exists []; reflexivity|]. cbn. destruct (H x (or_introl eq_refl)) as (y & ->).
  destruct IH as (r & ->); [intros z Hz; apply H; right; exact Hz|]. eauto.
Qed.

Section Total.
Context {T : Type} {N : Num T}.
Variables (scale centi eps : T) (unlit : bool).

(** *** Weights *)
Lemma each_vertex_total (o : object T) act l : forall st, 
  Forall (fun e => 0 <= get_vertex_index_by_id o (fst e) < Z.of_nat (length st)) l -> exists st', each_vertex o act l st = Some st' /\ length st' = length st.
Proof.
  induction l as [|[vid w] r IH]; intros st F; cbn [each_vertex]; [eauto|]. inversion F as [|? ? F1 F2]; subst. cbn in F1.
  destruct (zidx st (get_vertex_index_by_id o vid)) as [s|] eqn:E; [|apply zidx_None in E; lia].
  destruct (IH (list_set st (Z.to_nat (get_vertex_index_by_id o vid)) (act w s))) as (st' & H1 & H2); [rewrite list_set_length; exact F2|].
  exists st'. rewrite list_set_length in H2. auto.
Qed.
Lemma weights_loop_total (o : object T) l : forall ids st,
  Forall (fun p => Forall (fun e => 0 <= get_vertex_index_by_id o (fst e) < Z.of_nat (length st)) (snd p)) l ->
  exists r, weights_loop centi o l ids st = Some r.
Proof.
  induction l as [|[b es] r IH]; intros ids st F; cbn [weights_loop]; [eauto|]. inversion F as [|? ? F1 F2]; subst. cbn in F1.
  set (j := (Z.of_nat (length (ids ++ [b])) - 1) mod 2 ^ 16).
  destruct (each_vertex_total o (fun w => put_weight j (nmul w centi)) es st F1) as (st1 & -> & L1).
  rewrite <- L1 in F1. destruct (each_vertex_total o (fun _ => renorm) es st1 F1) as (st2 & -> & L2).
  apply IH. rewrite L2, L1. exact F2.
Qed.
Lemma get_weights_total (o : object T) bones :
  (forall l e, In l (lists_of o bones) -> In e l -> 0 <= get_vertex_index_by_id o (fst e) < Z.of_nat (length (oVerts o))) ->
  exists r, get_weights centi o bones = Some r.
Proof.
  intros H. apply weights_loop_total. rewrite repeat_length. apply Forall_forall. intros p Hp. apply Forall_forall. intros e He.
  apply (H (snd p)); [|exact He]. rewrite <- weight_lists_snd. apply in_map. exact Hp.
Qed.

(** *** Faces *)
Section Faces.
Variables (vs : list (vec3 T)) (inf : list (infl T)) (skinned : bool).
Notation nrm := (fun (_ : Z) (_ : vec3 T) => True).
Notation inv := (inv scale vs inf skinned nrm).
Hypothesis Hinf : length inf = length vs.

(** A triangle ready for export. *)
Definition ready (f : face T) : Prop :=
  length (fVerts f) = 3%nat /\ Forall (fun v => 0 <= v < Z.of_nat (length vs)) (fVerts f) /\
  (fUVs f = [] \/ length (fUVs f) = 3%nat) /\ length (fNormals f) = 3%nat /\ ~ In None (fNormals f).

Lemma first_bound st x : inv st -> 0 <= x < Z.of_nat (length vs) -> 0 <= x < Z.of_nat (length (csVerts st)).
Proof.
  intros I Hx. pose proof (i_first _ _ _ _ _ _ I x Hx) as H. apply zidx_bound in H. rewrite (i_src_len _ _ _ _ _ _ I) in H. exact H.
Qed.
Lemma zidx_in {A} (l : list A) i : 0 <= i < Z.of_nat (length l) -> exists x, zidx l i = Some x.
Proof. intros H. destruct (zidx l i) eqn:E; [eauto|]. apply zidx_None in E. lia. Qed.
Lemma ready_normal f i : ready f -> (i < 3)%nat -> exists n, nth_error (fNormals f) i = Some (Some n).
Proof.
  intros (_ & _ & _ & L & Hn) Hi. destruct (nth_error (fNormals f) i) as [[n|]|] eqn:E; [eauto| |apply nth_error_None in E; lia].
  exfalso. apply Hn. eapply nth_error_In. exact E.
Qed.
Lemma assign_total (st : cstate T) x id u n : inv st -> 0 <= id < Z.of_nat (length (csVerts st)) -> exists st', assign x id u (Some n) st = Some st'.
Proof.
  intros I H. unfold assign. destruct (zidx_in (csUV st) id) as (a & ->); [rewrite (i_uv_len _ _ _ _ _ _ I); exact H|].
  destruct (zidx_in (csNormals st) id) as (b & ->); [rewrite (i_n_len _ _ _ _ _ _ I); exact H|]. eauto.
Qed.
Lemma find_uv_total (uvs : list (vec2 T)) u l : (forall v, In v l -> 0 <= v < Z.of_nat (length uvs)) -> forall best, exists r, find_uv eps uvs u l best = Some r.
Proof.
  induction l as [|v r IH]; intros H best; cbn; [eauto|]. destruct (zidx_in uvs v (H v (or_introl eq_refl))) as (t & ->). apply IH. intros w Hw. apply H. right. exact Hw.
Qed.
Lemma uv_corner_total f i x st : inv st -> ready f -> (i < 3)%nat -> nth_error (fVerts f) i = Some x -> fUVs f <> [] ->
  exists r, uv_corner eps skinned f i x st = Some r.
Proof.
  intros I R Hi Hx Hu. unfold uv_corner. destruct (ready_normal f i R Hi) as (n & ->). destruct R as (_ & V & U & _ & _).
  destruct U as [U|U]; [contradiction|]. destruct (nth_error (fUVs f) i) as [u|] eqn:Eu; [|apply nth_error_None in Eu; lia].
  assert (Bx : 0 <= x < Z.of_nat (length vs)) by (rewrite Forall_forall in V; apply V; eapply nth_error_In; exact Hx).
  pose proof (first_bound st x I Bx) as Bv.
  destruct (vm_get (csMap st) x) as [|v0 r0] eqn:Ev.
  - destruct (assign_total st x x u n I Bv) as (s & ->). cbn. eauto.
  - destruct (find_uv_total (csUV st) u (v0 :: r0)) with (best := @None Z) as (r & Er).
    { intros v Hv. rewrite <- Ev in Hv. apply vm_get_in in Hv. apply (i_map _ _ _ _ _ _ I) in Hv. apply zidx_bound in Hv.
      rewrite (i_uv_len _ _ _ _ _ _ I), <- (i_src_len _ _ _ _ _ _ I). exact Hv. }
    rewrite Er. destruct r as [v|]; [eauto|].
    assert (NV : exists s1, new_vertex skinned x st = Some s1).
    { unfold new_vertex. destruct (zidx_in (csVerts st) x Bv) as (p & ->). destruct skinned eqn:Es; [|eauto].
      destruct (i_skin _ _ _ _ _ _ I eq_refl) as [K1 _]. destruct (zidx_in (csSkin st) x) as (s & ->); [rewrite K1; exact Bv|]. cbn. eauto. }
    destruct NV as (s1 & E1). rewrite E1.
    destruct (new_vertex_ok scale vs inf skinned nrm x st s1 I Bx E1) as (I1 & _ & _ & _ & _ & S1).
    apply zidx_bound in S1. rewrite (i_src_len _ _ _ _ _ _ I1) in S1.
    destruct (assign_total s1 x (Z.of_nat (length (csVerts st))) u n I1 S1) as (s2 & ->). cbn. eauto.
Qed.
Lemma plain_corner_total f i x st : inv st -> ready f -> (i < 3)%nat -> nth_error (fVerts f) i = Some x -> exists r, plain_corner f i x st = Some r.
Proof.
  intros I R Hi Hx. unfold plain_corner. destruct (ready_normal f i R Hi) as (n & ->). destruct R as (_ & V & _).
  assert (Bx : 0 <= x < Z.of_nat (length vs)) by (rewrite Forall_forall in V; apply V; eapply nth_error_In; exact Hx).
  pose proof (first_bound st x I Bx) as Bv.
  destruct (zidx_in (csNormals st) x) as (b & ->); [rewrite (i_n_len _ _ _ _ _ _ I); exact Bv|]. eauto.
Qed.
Lemma corners_total (f : face T) act (P : cstate T -> Prop) :
  (forall i x st, P st -> (i < 3)%nat -> nth_error (fVerts f) i = Some x -> exists id st', act i x st = Some (id, st') /\ P st') ->
  forall l i st, P st -> (forall k, nth_error l k = nth_error (fVerts f) (i + k)) -> (i + length l <= 3)%nat ->
  exists ids st', Mqo2Gltf.corners act i l st = Some (ids, st') /\ length ids = length l.
Proof.
  intros Hact. induction l as [|x r IH]; intros i st HP Hl Hi; cbn [Mqo2Gltf.corners]; [exists [], st; auto|].
  pose proof (Hl O) as H0. cbn in H0. rewrite Nat.add_0_r in H0. symmetry in H0. cbn in Hi.
  destruct (Hact i x st HP ltac:(lia) H0) as (id & st1 & -> & P1).
  destruct (IH (S i) st1 P1) as (ids & st2 & -> & L); [|lia|exists (id :: ids), st2; cbn; auto].
  intros k. specialize (Hl (S k)). cbn in Hl. rewrite Nat.add_succ_r in Hl. exact Hl.
Qed.
Lemma conv_face_total mm f st done : inv st -> prims_ok eps nrm mm st done -> ready f ->
  exists st', conv_face eps mm skinned f st = Some st' /\ inv st' /\ prims_ok eps nrm mm st' (done ++ [f]).
Proof.
  intros I P R. assert (Hn : face_nrm nrm f) by (intros ? ? ? _ _; exact Logic.I).
  assert (Hx : face_idx vs f) by (destruct R as (_ & V & _); exact V).
  assert (Ex : exists st', conv_face eps mm skinned f st = Some st').
  { pose proof R as (L & _). unfold conv_face. rewrite L. cbn [Nat.ltb Nat.leb]. destruct (mm (fMaterial f)) as [k|]; [|eauto].
    assert (Fin : forall act s0, inv s0 -> 
      (forall i x st, (inv st /\ (fUVs f <> [] -> csUseUV st = true)) -> (i < 3)%nat -> nth_error (fVerts f) i = Some x -> exists id st', act i x st = Some (id, st') /\ inv st' /\ (fUVs f <> [] -> csUseUV st' = true)) ->
      (fUVs f <> [] -> csUseUV s0 = true) ->
      exists st', match Mqo2Gltf.corners act 0 (fVerts f) s0 with Some (a :: b :: c :: _, st1) => Some (set_prims st1 (add_triangle (csPrims st1) k [c; b; a])) | _ => None end = Some st').
    { intros act s0 I0 Ha U0. destruct (corners_total f act _ Ha (fVerts f) 0 s0) as (ids & st' & -> & L'); [split; assumption|reflexivity|lia|].
      rewrite L in L'. destruct ids as [|a [|b [|c r]]]; try discriminate. eauto. }
    destruct (fUVs f) as [|u0 us] eqn:Eu.
    - apply Fin; [exact I| |intros Ne; contradiction]. intros i x s [Is _] Hi Hx'. destruct (plain_corner_total f i x s Is R Hi Hx') as ([id s'] & Er).
      exists id, s'. split; [exact Er|]. split; [|intros Ne; contradiction].
      exact (proj1 (plain_corner_ok scale eps vs inf skinned nrm f i x s id s' Is Hn Hx Hx' Eu Er)).
    - rewrite <- Eu in *. assert (Ne : fUVs f <> []) by (rewrite Eu; discriminate).
      apply (Fin (uv_corner eps skinned f) (set_use_uv st true)); [destruct I; constructor; assumption| |intros _; reflexivity].
      intros i x s [Is Us] Hi Hx'. destruct (uv_corner_total f i x s Is R Hi Hx' Ne) as ([id s'] & Er).
      exists id, s'. split; [exact Er|].
      destruct (uv_corner_ok scale eps vs inf skinned nrm f i x s id s' Is Hn Hx Hx' (Us Ne) Er) as (I' & X & _). split; [exact I'|]. intros _. apply (e_use _ _ _ X). auto. }
  destruct Ex as (st' & E). exists st'. split; [exact E|].
  destruct (conv_face_ok scale eps vs inf skinned nrm mm f st st' done I P Hn Hx (proj1 R) E) as (I' & _ & P'). auto.
Qed.
Lemma conv_gfaces_total mm fs : forall st done, inv st -> prims_ok eps nrm mm st done -> Forall ready fs ->
  exists st', conv_gfaces eps mm skinned fs st = Some st' /\ inv st'.
Proof.
  induction fs as [|f r IH]; intros st done I P F; cbn [conv_gfaces]; [eauto|]. inversion F; subst.
  destruct (conv_face_total mm f st done I P) as (st' & -> & I' & P'); [assumption|]. eapply IH; eassumption.
Qed.
End Faces.

Lemma at_corners_in {A} (src dst : list A) t x : at_corners src dst t -> In x dst -> In x src.
Proof.
  destruct t as [[a b] c]. intros [[_ ->]|(x1 & y1 & z1 & H1 & H2 & H3 & ->)] Hx; [destruct Hx|].
  destruct Hx as [<-|[<-|[<-|[]]]]; eapply nth_error_In; eassumption.
Qed.

Lemma triangles_ready (o : object T) : well_indexed o -> Forall (fun f => complete f = true -> ~ In None (fNormals f)) (oFaces o) ->
  forall fs gss, Forall2 (completed o) (oFaces o) fs -> Forall2 triangulates fs gss -> Forall (ready (oVerts o)) (concat gss).
Proof.
  intros W HN fs gss C TR. unfold well_indexed in W.
  assert (FN : Forall (fun f => MqoSpec.face_ok (length (oVerts o)) f /\ length (fNormals f) = length (fVerts f) /\ ~ In None (fNormals f)) fs).
  { clear TR gss. revert W HN. induction C as [|f f' l l' (A1 & A2 & A3 & A4) C IH]; intros W HN; [constructor|].
    inversion W as [|? ? [W1 W2] W3]; subst. inversion HN as [|? ? N1 N2]; subst. constructor; [|apply IH; assumption].
    assert (L : length (fNormals f') = length (fVerts f')).
    { rewrite A4, A1. unfold complete. destruct (Nat.eqb_spec (length (fNormals f)) (length (fVerts f))); [assumption|apply map_length]. }
    split; [|split; [exact L|]].
    - split; [rewrite A1; exact W1|]. split; [rewrite A3, A1; exact W2|]. right. exact L.
    - rewrite A4. destruct (complete f); [auto|]. intros H. apply in_map_iff in H as (v & Q & _). discriminate. }
  clear C W HN. induction TR as [|f gs fs gss Ht TR IH]; cbn; [constructor|]. inversion FN as [|? ? (F1 & F2 & F3) F4]; subst.
  apply Forall_app. split; [|apply IH; exact F4]. clear IH TR F4 FN.
  pose proof (triangles_valid _ f gs F1 Ht) as TV. destruct Ht as (_ & Hs & Hl).
  destruct (Nat.lt_ge_cases (length (fVerts f)) 3) as [L|L]; [rewrite (Hs L); constructor|].
  destruct (Hl L) as (ts & F & _). clear Hs Hl. revert TV. induction F as [|g t gs' ts (_ & _ & AU & AN & _) F IH]; intros TV; [constructor|].
  inversion TV as [|? ? [V1 V2] V3]; subst. constructor; [|apply IH; exact V3].
  split; [exact V1|]. split; [exact V2|]. destruct t as [[a b] c]. split; [|split].
  - destruct AU as [[_ Q]|(x & y & z & _ & _ & _ & ->)]; [left; exact Q|right; reflexivity].
  - destruct AN as [[Q _]|(x & y & z & _ & _ & _ & ->)]; [|reflexivity]. rewrite Q in F2. cbn in F2. lia.
  - intros Hi. apply F3. eapply at_corners_in; eassumption.
Qed.

(** *** Objects *)
Variables (objs : list (object T)) (sets : list target_list) (bones : list (bone T)).

Lemma convert_object_total (o : object T) base morphs mm : exportable objs sets bones o ->
  Forall (fun m => length (oVerts m) = length (oVerts o)) morphs ->
  exists mesh joints, convert_object scale centi eps unlit o bones (bone_node base bones) morphs mm = Some (mesh, joints) /\
    Forall (fun j => exists i, j = (base + i)%nat /\ (i < length bones)%nat) joints.
Proof.
  intros (_ & W & HN & HW & _) HM. unfold convert_object.
  assert (V : valid_object o). { unfold valid_object. eapply Forall_impl; [|exact W]. cbn. intros f [Hf _]. exact Hf. }
  destruct (fixh_normals_spec o V) as (o1 & _ & E1 & _). rewrite E1.
  destruct (fixh_completed o o1 W E1) as (So & C1). pose proof (completed_ok o W _ C1) as OK.
  assert (OK1 : Forall (MqoSpec.face_ok (length (oVerts o1))) (oFaces o1)) by (rewrite So; exact OK).
  destruct (triangulate_object_ok o1 OK1) as (gss & E2 & TR). rewrite E2.
  set (tris := concat gss) in *. assert (Eo2 : set_faces o1 tris = set_faces o tris) by (rewrite So; reflexivity). rewrite Eo2.
  destruct (get_weights_total (set_faces o tris) bones HW) as ([ids inf] & E3). rewrite E3.
  pose proof (get_weights_proj _ _ _ _ _ E3) as (Eids & Linf & _). change (list_bones (set_faces o tris) bones) with (list_bones o bones) in Eids.
  change (length (oVerts (set_faces o tris))) with (length (oVerts o)) in Linf.
  set (skinned := negb (Nat.eqb (length ids) 0)) in *.
  change (oVerts (set_faces o tris)) with (oVerts o). change (oFaces (set_faces o tris)) with tris.
  match goal with |- context [conv_gfaces eps mm skinned tris ?s] => set (st0 := s) in * end.
  pose proof (init_inv scale (oVerts o) inf skinned (fun _ _ => True) Linf) as I0. fold st0 in I0.
  destruct (conv_gfaces_total (oVerts o) inf skinned Linf mm tris st0 []) as (st & E4 & I); [exact I0| |eapply triangles_ready; eassumption|].
  { split; [constructor|]. split; [|intros ? ? []]. intros k. cbn. split; [intros []|intros (f & [] & _)]. }
  rewrite E4.
  destruct (all_some_total (fun m => all_some (target_offset scale (csVerts st) (oVerts m)) (csSrc st)) morphs) as (targets & E5).
  { intros m Hm. rewrite Forall_forall in HM. specialize (HM m Hm). apply all_some_total. intros x Hx. unfold target_offset.
    apply In_nth_error in Hx as (j & Hj). assert (Hz : zidx (csSrc st) (Z.of_nat j) = Some x) by (apply zidx_Some; rewrite Nat2Z.id; split; [lia|exact Hj]).
    destruct (i_src _ _ _ _ _ _ I _ _ Hz) as (q & Hq & _). apply zidx_bound in Hq.
    destruct (zidx (oVerts m) x) as [mq|] eqn:Em; [|apply zidx_None in Em; lia]. pose proof (first_bound _ _ _ _ _ I Hq) as Bq. destruct (zidx (csVerts st) x) as [p|] eqn:Ep; [|apply zidx_None in Ep; lia]. eauto. }
  rewrite E5.
  destruct (all_some_total (bone_node base bones) ids) as (js & E6).
  { intros id Hid. rewrite Eids in Hid. unfold list_bones in Hid. apply in_flat_map in Hid as (b & Hb & Hx). apply in_map_iff in Hx as (x & <- & _).
    unfold bone_node, bone_by_id. destruct (last_index _ bones) as [i|] eqn:El; [cbn; eauto|]. exfalso.
    pose proof (last_index_none _ _ El) as F. rewrite Forall_forall in F. specialize (F b Hb). cbn in F. rewrite Z.eqb_refl in F. discriminate. }
  rewrite E6. eexists. exists js. split; [reflexivity|]. apply all_some_spec in E6. clear - E6. induction E6 as [|x j l l' H _ IH]; constructor; [|exact IH].
  unfold bone_node in H. destruct (bone_by_id bones x) as [i|] eqn:E; [|discriminate]. cbn in H. injection H as <-. exists i. split; [reflexivity|].
  apply bone_by_id_Some in E as (b & Hb & _). apply nth_error_Some. congruence.
Qed.

Lemma morph_objects_total (o : object T) : exportable objs sets bones o -> exists ms, morph_objects objs sets o = Some ms /\
  Forall (fun m => length (oVerts m) = length (oVerts o)) ms.
Proof.
  intros (_ & _ & _ & _ & HT). unfold morph_objects.
  destruct (all_some_total (fun t => match last_index (fun x => String.eqb (oName x) t) objs with Some i => nth_error objs i | None => None end)
              (base_targets sets (oName o))) as (ts & ->).
  { intros t Ht. destruct (base_targets_of sets (oName o)) as [[H1 _]|H]; [rewrite H1 in Ht; destruct Ht|].
    specialize (HT _ _ H Ht). apply in_map_iff in HT as (x & Hx & Hin).
    destruct (last_index _ objs) as [i|] eqn:El.
    - apply last_index_nth in El as (y & Hy & _). eauto.
    - exfalso. pose proof (last_index_none _ _ El) as F. rewrite Forall_forall in F. specialize (F x Hin). cbn in F. rewrite Hx, String.eqb_refl in F. discriminate. }
  cbn. eexists. split; [reflexivity|]. apply Forall_forall. intros m Hm. apply filter_In in Hm as [_ Hm]. apply Nat.eqb_eq. exact Hm.
Qed.

Lemma conv_objects_total base mm os : Forall (exportable objs sets bones) os -> forall ms ss, 
  exists r, conv_objects scale centi eps unlit objs sets bones base mm os ms ss = Some r.
Proof.
  induction 1 as [|o r Ho F IH]; intros ms ss; cbn [conv_objects]; [eauto|].
  destruct (morph_objects_total o Ho) as (morphs & -> & HM).
  assert (Next : forall n ms1 ss1, exists x, match conv_objects scale centi eps unlit objs sets bones base mm r ms1 ss1 with
            | Some (ns, ms', ss') => Some (n :: ns, ms', ss') | None => @None (list (gnode T) * list (gmesh T) * list (gskin T)) end = Some x).
  { intros n ms1 ss1. destruct (IH ms1 ss1) as ([[a b] c] & ->). eauto. }
  destruct (oVisible o); [|apply Next].
  destruct (convert_object_total o base morphs mm Ho HM) as (mesh & joints & -> & FJ). cbv zeta.
  destruct (negb (length joints =? 0)%nat); [|apply Next].
  unfold make_skin. destruct (all_some_total (fun j => option_map (fun b => inverse_bind scale (bPos b)) (nth_error bones (j - base))) joints) as (l & ->); [|cbn; apply Next].
  intros j Hj. rewrite Forall_forall in FJ. destruct (FJ j Hj) as (i & -> & Hi). replace (base + i - base)%nat with i by lia.
  destruct (nth_error bones i) as [b|] eqn:E; [cbn; eauto|]. apply nth_error_None in E. lia.
Qed.
End Total.

Theorem to_gltf_total {T : Type} {N : Num T} (scale centi eps : T) ign unlit opaque99 rough tex_alpha (d : document T) bones sets :
  Forall (fun b => 0 < bParent b -> In (bParent b) (map bID bones)) bones ->
  Forall (exportable (fix_ids 0 (dObjects d)) sets bones) (fix_ids 0 (dObjects d)) ->
  to_gltf scale centi eps ign unlit opaque99 rough tex_alpha d bones sets <> None.
Proof.
  intros HP HX. unfold to_gltf. set (objs := fix_ids 0 (dObjects d)) in *. set (os := target_objects ign sets objs).
  assert (FO : Forall (exportable objs sets bones) os).
  { apply Forall_forall. intros o Ho. apply filter_In in Ho as [Ho _]. rewrite Forall_forall in HX. auto. }
  unfold add_bone_nodes. destruct (link_joints_total scale (length os) bones bones (repeat v3zero (length bones)) (mkGraph [] [])) as ([ts g0] & ->); [auto|exact HP|].
  destruct (conv_objects_total scale centi eps unlit objs sets bones (length os) (assoc (material_map os 0 0 (map (@mtName T) (dMaterials d)))) os FO [] []) as ([[ns ms] ss] & ->).
  destruct (place_total ign (map (fun o => (oDepth o, true)) os) 0 [] g0) as (gr & ->); [|discriminate].
  rewrite Forall_map. cbn. eapply Forall_impl; [|exact FO]. intros o (H & _). exact H.
Qed.
