(** Meshes of the glTF export: the arrays built by [ConvertObject]. *)
From Coq Require Import String List ZArith Bool Lia Permutation.
From Verif.Model Require Import Num Vec Matrix Mqo MqoDoc Mmd2Mqo Normals Mqo2Mmd Gltf Mqo2Gltf.
From Verif Require Import Spec.GltfSpec Proofs.Mqo2MmdProofs Proofs.MqoObjProofs Proofs.Mmd2MqoFaces.
Import ListNotations.
Local Open Scope Z_scope.
Local Open Scope list_scope.

Lemma zidx_length {A B} (l : list A) (l' : list B) i x : length l = length l' -> zidx l i = Some x -> exists y, zidx l' i = Some y.
Proof.
  intros HL H. apply zidx_bound in H. destruct (zidx l' i) as [y|] eqn:E; [eauto|]. apply zidx_None in E. lia.
Qed.

Section Mesh.
Context {T : Type} {N : Num T}.
Variables (scale eps : T) (vs : list (vec3 T)) (inf : list (infl T)) (skinned : bool) (nrm : Z -> vec3 T -> Prop).

Record inv (st : cstate T) : Prop := {
  i_src_len : length (csSrc st) = length (csVerts st);
  i_uv_len : length (csUV st) = length (csVerts st);
  i_n_len : length (csNormals st) = length (csVerts st);
  i_src : forall j x, zidx (csSrc st) j = Some x -> exists q, zidx vs x = Some q /\ zidx (csVerts st) j = Some (v3scaled scale q);
  i_first : forall j, 0 <= j < Z.of_nat (length vs) -> zidx (csSrc st) j = Some j;
  i_map : forall x v, In (x, v) (csMap st) -> zidx (csSrc st) v = Some x;
  i_nrm : forall x v, In (x, v) (csMap st) -> exists m, zidx (csNormals st) v = Some m /\ nrm x m;
  i_skin : skinned = true -> length (csSkin st) = length (csVerts st) /\
           forall j x, zidx (csSrc st) j = Some x -> zidx (csSkin st) j = zidx inf x }.

Record ext (st st' : cstate T) : Prop := {
  e_src : exists l, csSrc st' = csSrc st ++ l;
  e_map : forall x v, In (x, v) (csMap st) -> In (x, v) (csMap st') /\ zidx (csUV st') v = zidx (csUV st) v;
  e_nrm : forall x v m, zidx (csSrc st) v = Some x -> zidx (csNormals st) v = Some m -> nrm x m ->
          exists m', zidx (csNormals st') v = Some m' /\ nrm x m';
  e_use : csUseUV st = true -> csUseUV st' = true }.

Lemma ext_refl st : ext st st.
Proof. split; [exists []; symmetry; apply app_nil_r|auto|eauto|auto]. Qed.
Lemma ext_trans a b c : ext a b -> ext b c -> ext a c.
Proof.
  intros [(l & E1) M1 N1 U1] [(l' & E2) M2 N2 U2]. split.
  - exists (l ++ l'). rewrite E2, E1, app_assoc. reflexivity.
  - intros x v H. destruct (M1 x v H) as [H1 Q1]. destruct (M2 x v H1) as [H2 Q2]. split; congruence.
  - intros x v m Hs Hm Hn. destruct (N1 x v m Hs Hm Hn) as (m' & Hm' & Hn').
    eapply N2; [|exact Hm'|exact Hn']. rewrite E1. apply zidx_app1. exact Hs.
  - auto.
Qed.

Definition corner_ok (st : cstate T) (f : face T) (i : nat) (id : Z) : Prop :=
  exists x, nth_error (fVerts f) i = Some x /\ zidx (csSrc st) id = Some x /\
    (fUVs f <> [] -> csUseUV st = true /\ exists u t, nth_error (fUVs f) i = Some u /\ In (x, id) (csMap st) /\ zidx (csUV st) id = Some t /\ uv_close eps u t) /\
    exists m, zidx (csNormals st) id = Some m /\ nrm x m.
Lemma corner_ext st st' f i id : ext st st' -> corner_ok st f i id -> corner_ok st' f i id.
Proof.
  intros [(l & E1) M1 N1 U1] (x & Hx & Hs & Hu & m & Hm & Hn). exists x. split; [exact Hx|].
  split; [rewrite E1; apply zidx_app1; exact Hs|]. split.
  - intros Ne. destruct (Hu Ne) as (HU & u & t & Hu1 & Hi & Ht & Hc). split; [auto|].
    destruct (M1 _ _ Hi) as [Hi' Q]. exists u, t. rewrite Q. auto.
  - eapply N1; eauto.
Qed.

(** Normals of the face at hand are allowed. *)
Definition face_nrm (f : face T) : Prop :=
  forall i x m, nth_error (fVerts f) i = Some x -> nth_error (fNormals f) i = Some (Some m) -> nrm x m.
Definition face_idx (f : face T) : Prop := Forall (fun x => 0 <= x < Z.of_nat (length vs)) (fVerts f).

Lemma list_set_z {A} (l : list A) id x j : 0 <= id < Z.of_nat (length l) ->
  zidx (list_set l (Z.to_nat id) x) j = if j =? id then Some x else zidx l j.
Proof.
  intros H. unfold zidx. destruct (j <? 0) eqn:E.
  - apply Z.ltb_lt in E. replace (j =? id) with false by (symmetry; apply Z.eqb_neq; lia). reflexivity.
  - apply Z.ltb_ge in E. rewrite list_set_nth by lia.
    destruct (Z.eqb_spec j id) as [->|Ne]; [rewrite Nat.eqb_refl; reflexivity|].
    destruct (Nat.eqb_spec (Z.to_nat j) (Z.to_nat id)); [lia|reflexivity].
Qed.

(** Assigning a vertex whose source is [x] and that is not yet in the map. *)
Lemma assign_ok (f : face T) i x id u st n st1 :
  inv st -> face_nrm f -> nth_error (fVerts f) i = Some x -> nth_error (fUVs f) i = Some u -> nth_error (fNormals f) i = Some n ->
  zidx (csSrc st) id = Some x -> (forall y, ~ In (y, id) (csMap st)) -> csUseUV st = true ->
  assign x id u n st = Some st1 -> inv st1 /\ ext st st1 /\ corner_ok st1 f i id /\ csPrims st1 = csPrims st.
Proof.
  intros I Hf Hx Hu Hn Hs Hfresh HU H. unfold assign in H.
  destruct (zidx (csUV st) id) as [t0|] eqn:E1; [|discriminate].
  destruct (zidx (csNormals st) id) as [m0|] eqn:E2; [|discriminate].
  destruct n as [m|]; [|discriminate]. injection H as <-.
  pose proof (zidx_bound _ _ _ E1) as B1. pose proof (zidx_bound _ _ _ E2) as B2.
  assert (Hm : nrm x m) by (eapply Hf; eauto).
  assert (Hne : forall x' v', In (x', v') (csMap st) -> (v' =? id) = false).
  { intros x' v' Hi. apply Z.eqb_neq. intros ->. exact (Hfresh _ Hi). }
  split; [destruct I; constructor; cbn|split].
  - assumption.
  - rewrite list_set_length. assumption.
  - rewrite list_set_length. assumption.
  - assumption.
  - assumption.
  - intros x' v' Hi. apply in_app_or in Hi as [Hi|[[= <- <-]|[]]]; auto.
  - intros x' v' Hi. rewrite list_set_z by exact B2. apply in_app_or in Hi as [Hi|[[= <- <-]|[]]].
    + rewrite (Hne _ _ Hi). auto.
    + rewrite Z.eqb_refl. eauto.
  - assumption.
  - constructor; cbn.
    + exists []. symmetry. apply app_nil_r.
    + intros x' v' Hi. split; [apply in_or_app; left; exact Hi|]. rewrite list_set_z by exact B1. rewrite (Hne _ _ Hi). reflexivity.
    + intros x' v' m' Hs' Hm' Hn'. rewrite list_set_z by exact B2. destruct (Z.eqb_spec v' id) as [->|]; [|eauto].
      rewrite Hs in Hs'. injection Hs' as <-. eauto.
    + auto.
  - split; [|reflexivity]. exists x. cbn. split; [exact Hx|]. split; [exact Hs|]. split.
    + intros _. split; [exact HU|]. exists u, u. split; [exact Hu|]. split; [apply in_or_app; right; left; reflexivity|].
      rewrite list_set_z, Z.eqb_refl by exact B1. split; [reflexivity|]. left. reflexivity.
    + exists m. rewrite list_set_z, Z.eqb_refl by exact B2. auto.
Qed.

Lemma new_vertex_ok x st st1 : inv st -> 0 <= x < Z.of_nat (length vs) -> new_vertex skinned x st = Some st1 ->
  inv st1 /\ ext st st1 /\ csPrims st1 = csPrims st /\ csMap st1 = csMap st /\ csUseUV st1 = csUseUV st /\
  zidx (csSrc st1) (Z.of_nat (length (csVerts st))) = Some x.
Proof.
  intros I Hx H. unfold new_vertex in H.
  destruct (zidx (csVerts st) x) as [p|] eqn:Ep; [|discriminate].
  pose proof (i_first _ I x Hx) as Hsx. destruct (i_src _ I _ _ Hsx) as (q & Hq & Hp).
  assert (Epq : p = v3scaled scale q) by congruence. clear Hp.
  set (sk := if skinned then _ else _) in H. destruct sk as [sk'|] eqn:Esk; [|discriminate]. injection H as <-.
  assert (Hnew : zidx (csSrc st ++ [x]) (Z.of_nat (length (csVerts st))) = Some x).
  { rewrite <- (i_src_len _ I). apply zidx_last. }
  destruct I as [L1 L2 L3 IS IF IM IN_ IK].
  split; [|split; [|repeat split; try reflexivity; exact Hnew]]; constructor; cbn.
  - rewrite !app_length; cbn; lia.
  - rewrite !app_length; cbn; lia.
  - rewrite !app_length; cbn; lia.
  - intros j y Hj. rewrite zidx_snoc in Hj. destruct (Z.eqb_spec j (Z.of_nat (length (csSrc st)))) as [E|_]; [injection Hj as <-|].
    + exists q. split; [exact Hq|]. rewrite E, L1, zidx_last. congruence.
    + destruct (IS _ _ Hj) as (q' & Hq' & Hv). exists q'. split; [exact Hq'|]. apply zidx_app1. exact Hv.
  - intros j Hj. apply zidx_app1. auto.
  - intros y v Hi. apply zidx_app1. auto.
  - intros y v Hi. destruct (IN_ _ _ Hi) as (m & Hm & Hn). exists m. split; [apply zidx_app1; exact Hm|exact Hn].
  - intros Hsk. destruct (IK Hsk) as [K1 K2]. unfold sk in Esk. rewrite Hsk in Esk.
    destruct (zidx (csSkin st) x) as [s|] eqn:Es; [|discriminate]. cbn in Esk. injection Esk as <-.
    rewrite !app_length; cbn. split; [lia|].
    intros j y Hj. rewrite zidx_snoc in Hj. destruct (Z.eqb_spec j (Z.of_nat (length (csSrc st)))) as [E|_]; [injection Hj as <-|].
    2:{ pose proof (K2 _ _ Hj) as Q. destruct (zidx_length (csSrc st) (csSkin st) j y ltac:(lia) Hj) as (z & Hz).
      rewrite <- Q, Hz. apply zidx_app1. exact Hz. }
    rewrite E, L1, <- K1, zidx_last. rewrite <- (K2 _ _ Hsx). symmetry. exact Es.
  - exists [x]. reflexivity.
  - intros y v Hi. split; [exact Hi|]. destruct (zidx_length (csSrc st) (csUV st) v y ltac:(lia) (IM _ _ Hi)) as (t & Ht).
    rewrite Ht. apply zidx_app1. exact Ht.
  - intros y v m Hs Hm Hn. exists m. split; [apply zidx_app1; exact Hm|exact Hn].
  - auto.
Qed.

Lemma find_uv_ok uvs (u : vec2 T) l : forall best v,
  find_uv eps uvs u l best = Some (Some v) ->
  (In v l /\ exists t, zidx uvs v = Some t /\ nltb (v2lensqr (v2sub u t)) eps = true) \/ best = Some v.
Proof.
  induction l as [|w r IH]; intros best v H; cbn in H; [injection H as <-; right; reflexivity|].
  destruct (zidx uvs w) as [t|] eqn:E; [|discriminate]. apply IH in H as [[H1 H2]|H].
  - left. split; [right; exact H1|exact H2].
  - destruct (nltb _ eps) eqn:El; [|right; exact H]. injection H as <-. left. split; [left; reflexivity|]. eauto.
Qed.
Lemma vm_get_in (m : list (Z * Z)) x v : In v (vm_get m x) <-> In (x, v) m.
Proof.
  unfold vm_get. rewrite in_map_iff. split.
  - intros ([a b] & <- & H). apply filter_In in H as [H E]. cbn in *. apply Z.eqb_eq in E as ->. exact H.
  - intros H. exists (x, v). split; [reflexivity|]. apply filter_In. cbn. rewrite Z.eqb_refl. auto.
Qed.

Lemma uv_corner_ok (f : face T) i x st id st1 : inv st -> face_nrm f -> face_idx f -> nth_error (fVerts f) i = Some x -> csUseUV st = true ->
  uv_corner eps skinned f i x st = Some (id, st1) -> inv st1 /\ ext st st1 /\ corner_ok st1 f i id /\ csPrims st1 = csPrims st.
Proof.
  intros I Hf Hi Hx HU H. unfold uv_corner in H.
  destruct (nth_error (fNormals f) i) as [n|] eqn:En; [|discriminate].
  destruct (nth_error (fUVs f) i) as [u|] eqn:Eu; [|discriminate].
  assert (Bx : 0 <= x < Z.of_nat (length vs)).
  { unfold face_idx in Hi. rewrite Forall_forall in Hi. apply Hi. eapply nth_error_In. exact Hx. }
  destruct (vm_get (csMap st) x) as [|v0 r0] eqn:Ev.
  - destruct (assign x x u n st) as [s|] eqn:Ea; [|discriminate]. cbn in H. injection H as <- <-.
    eapply assign_ok; try eassumption; [apply (i_first _ I); exact Bx|].
    intros y Hy. pose proof (i_map _ I _ _ Hy) as Hs. rewrite (i_first _ I x Bx) in Hs. injection Hs as <-.
    apply vm_get_in in Hy. rewrite Ev in Hy. destruct Hy.
  - destruct (find_uv eps (csUV st) u (v0 :: r0) None) as [[v|]|] eqn:Eq; [| |discriminate].
    + injection H as <- <-. split; [exact I|]. split; [apply ext_refl|]. split; [|reflexivity].
      apply find_uv_ok in Eq as [[Hv (t & Ht & Hl)]|]; [|discriminate].
      rewrite <- Ev in Hv. apply vm_get_in in Hv. exists x. split; [exact Hx|]. split; [apply (i_map _ I); exact Hv|]. split.
      * intros _. split; [exact HU|]. exists u, t. split; [exact Eu|]. split; [exact Hv|]. split; [exact Ht|]. right. exact Hl.
      * apply (i_nrm _ I). exact Hv.
    + destruct (new_vertex skinned x st) as [s1|] eqn:E1; [|discriminate].
      destruct (assign x (Z.of_nat (length (csVerts st))) u n s1) as [s2|] eqn:E2; [|discriminate].
      cbn in H. injection H as <- <-.
      destruct (new_vertex_ok _ _ _ I Bx E1) as (I1 & X1 & P1 & M1 & U1 & S1).
      assert (Fresh : forall y, ~ In (y, Z.of_nat (length (csVerts st))) (csMap s1)).
      { intros y Hy. rewrite M1 in Hy. apply (i_map _ I) in Hy. apply zidx_bound in Hy. rewrite (i_src_len _ I) in Hy. lia. }
      rewrite <- U1 in HU.
      destruct (assign_ok f i x _ u s1 n s2 I1 Hf Hx Eu En S1 Fresh HU E2) as (I2 & X2 & C2 & P2).
      split; [exact I2|]. split; [exact (ext_trans _ _ _ X1 X2)|]. split; [exact C2|]. congruence.
Qed.

Lemma plain_corner_ok (f : face T) i x st id st1 : inv st -> face_nrm f -> face_idx f -> nth_error (fVerts f) i = Some x -> fUVs f = [] ->
  plain_corner f i x st = Some (id, st1) -> inv st1 /\ ext st st1 /\ corner_ok st1 f i id /\ csPrims st1 = csPrims st.
Proof.
  intros I Hf Hi Hx Hu H. unfold plain_corner in H.
  destruct (nth_error (fNormals f) i) as [[m|]|] eqn:En; [|discriminate..].
  destruct (zidx (csNormals st) x) as [m0|] eqn:E2; [|discriminate]. injection H as <- <-.
  pose proof (zidx_bound _ _ _ E2) as B2.
  assert (Bx : 0 <= x < Z.of_nat (length vs)).
  { unfold face_idx in Hi. rewrite Forall_forall in Hi. apply Hi. eapply nth_error_In. exact Hx. }
  assert (Hm : nrm x m) by (eapply Hf; eauto).
  pose proof (i_first _ I x Bx) as Hs.
  split; [destruct I; constructor; cbn|split].
  - assumption.
  - assumption.
  - rewrite list_set_length. assumption.
  - assumption.
  - assumption.
  - assumption.
  - intros x' v' Hi'. rewrite list_set_z by exact B2. destruct (Z.eqb_spec v' x) as [->|]; [|auto].
    apply i_map0 in Hi'. rewrite Hs in Hi'. injection Hi' as <-. eauto.
  - assumption.
  - constructor; cbn.
    + exists []. symmetry. apply app_nil_r.
    + auto.
    + intros x' v' m' Hs' Hm' Hn'. rewrite list_set_z by exact B2. destruct (Z.eqb_spec v' x) as [->|]; [|eauto].
      rewrite Hs in Hs'. injection Hs' as <-. eauto.
    + auto.
  - split; [|reflexivity]. exists x. cbn. split; [exact Hx|]. split; [exact Hs|]. split; [intros Ne; contradiction|].
    exists m. rewrite list_set_z, Z.eqb_refl by exact B2. auto.
Qed.

Lemma corners_ok (f : face T) act : 
  (forall i x st id st1, inv st -> nth_error (fVerts f) i = Some x -> (fUVs f <> [] -> csUseUV st = true) -> act i x st = Some (id, st1) ->
     inv st1 /\ ext st st1 /\ corner_ok st1 f i id /\ csPrims st1 = csPrims st) ->
  forall l i st ids st1, inv st -> (forall k, nth_error l k = nth_error (fVerts f) (i + k)) -> (fUVs f <> [] -> csUseUV st = true) ->
  corners act i l st = Some (ids, st1) ->
  inv st1 /\ ext st st1 /\ length ids = length l /\ (forall k id, nth_error ids k = Some id -> corner_ok st1 f (i + k) id) /\ csPrims st1 = csPrims st.
Proof.
  intros Hact. induction l as [|x r IH]; intros i st ids st1 I Hl HU H; cbn [corners] in H.
  - injection H as <- <-. split; [exact I|]. split; [apply ext_refl|]. split; [reflexivity|]. split; [|reflexivity].
    intros [|k] id Hk; discriminate.
  - destruct (act i x st) as [[id st2]|] eqn:Ea; [|discriminate].
    destruct (corners act (S i) r st2) as [[ids' st3]|] eqn:Er; [|discriminate]. injection H as <- <-.
    pose proof (Hl O) as H0. cbn in H0. rewrite Nat.add_0_r in H0. symmetry in H0.
    destruct (Hact _ _ _ _ _ I H0 HU Ea) as (I2 & X2 & C2 & P2).
    destruct (IH (S i) st2 ids' st3) as (I3 & X3 & L3 & C3 & P3); [exact I2| | |exact Er|].
    + intros k. specialize (Hl (S k)). cbn in Hl. rewrite Nat.add_succ_r in Hl. exact Hl.
    + intros Ne. apply (e_use _ _ X2). auto.
    + split; [exact I3|]. split; [exact (ext_trans _ _ _ X2 X3)|]. split; [cbn; lia|]. split; [|congruence].
      intros [|k] id' Hk; cbn in Hk.
      * injection Hk as <-. rewrite Nat.add_0_r. exact (corner_ext _ _ _ _ _ X3 C2).
      * rewrite Nat.add_succ_r. apply C3. exact Hk.
Qed.

Definition face_ok (st : cstate T) (f : face T) (t : list Z) : Prop :=
  exists a b c, t = [c; b; a] /\ corner_ok st f 0 a /\ corner_ok st f 1 b /\ corner_ok st f 2 c.
Lemma face_ext st st' f t : ext st st' -> face_ok st f t -> face_ok st' f t.
Proof. intros X (a & b & c & -> & H1 & H2 & H3). exists a, b, c. repeat split; try (eapply corner_ext; eassumption). Qed.

Variable mmap : Z -> option Z.
Definition mapped (k : Z) (f : face T) : bool := match mmap (fMaterial f) with Some k' => k' =? k | None => false end.
Definition prims_ok (st : cstate T) (done : list (face T)) : Prop :=
  NoDup (map fst (csPrims st)) /\
  (forall k, In k (map fst (csPrims st)) <-> exists f, In f done /\ mmap (fMaterial f) = Some k) /\
  forall k is_, In (k, is_) (csPrims st) -> exists tris, is_ = concat tris /\ Forall2 (face_ok st) (filter (mapped k) done) tris.

Lemma add_triangle_keys l k t : map fst (add_triangle l k t) = if existsb (Z.eqb k) (map fst l) then map fst l else map fst l ++ [k].
Proof.
  induction l as [|[m is_] r IH]; cbn [add_triangle map fst existsb app]; [reflexivity|].
  rewrite (Z.eqb_sym k m). destruct (m =? k); cbn [map fst orb]; [reflexivity|]. rewrite IH. destruct (existsb _ _); reflexivity.
Qed.
Lemma add_triangle_in l k t : NoDup (map fst l) -> forall k' is_, In (k', is_) (add_triangle l k t) ->
  (k' <> k /\ In (k', is_) l) \/ (k' = k /\ ((exists i0, In (k, i0) l /\ is_ = i0 ++ t) \/ (~ In k (map fst l) /\ is_ = t))).
Proof.
  induction l as [|[m is0] r IH]; intros Hn k' is_ H; cbn [add_triangle] in H.
  - destruct H as [[= <- <-]|[]]. right. split; [reflexivity|]. right. split; [intros []|reflexivity].
  - inversion Hn as [|? ? N1 N2]; subst. cbn in N1. destruct (Z.eqb_spec m k) as [->|Ne].
    + destruct H as [[= <- <-]|H].
      * right. split; [reflexivity|]. left. exists is0. split; [left; reflexivity|reflexivity].
      * left. split; [|right; exact H]. intros ->. apply N1. apply in_map_iff. exists (k, is_). auto.
    + destruct H as [[= <- <-]|H]; [left; split; [exact Ne|left; reflexivity]|].
      apply IH in H; [|exact N2]. destruct H as [[H1 H2]|[-> [(i0 & H1 & H2)|[H1 H2]]]].
      * left. split; [exact H1|right; exact H2].
      * right. split; [reflexivity|]. left. exists i0. split; [right; exact H1|exact H2].
      * right. split; [reflexivity|]. right. split; [|exact H2]. cbn. intros [E|E]; [congruence|exact (H1 E)].
Qed.

Lemma forall2_app_snoc {A B} (R : A -> B -> Prop) l l' x y : Forall2 R l l' -> R x y -> Forall2 R (l ++ [x]) (l' ++ [y]).
Proof. induction 1; cbn; constructor; auto. Qed.

Lemma prims_add st done f k t : prims_ok st done -> mmap (fMaterial f) = Some k -> face_ok st f t ->
  prims_ok (set_prims st (add_triangle (csPrims st) k t)) (done ++ [f]).
Proof.
  intros (P1 & P2 & P3) Hk Hf. unfold prims_ok. cbn [set_prims csPrims].
  assert (FX : forall f' t', face_ok st f' t' -> face_ok (set_prims st (add_triangle (csPrims st) k t)) f' t').
  { intros f' t' H. eapply face_ext; [|exact H]. constructor; cbn; [exists []; symmetry; apply app_nil_r|auto|eauto|auto]. }
  split; [|split].
  - rewrite add_triangle_keys. destruct (existsb _ _) eqn:E; [exact P1|].
    apply (Permutation_NoDup (l := k :: map fst (csPrims st))); [apply Permutation_cons_append|].
    constructor; [|exact P1]. intros Hi. assert (existsb (Z.eqb k) (map fst (csPrims st)) = true); [|congruence].
    apply existsb_exists. exists k. rewrite Z.eqb_refl. auto.
  - intros k'. rewrite add_triangle_keys.
    assert (Q : In k' (if existsb (Z.eqb k) (map fst (csPrims st)) then map fst (csPrims st) else map fst (csPrims st) ++ [k]) <->
                In k' (map fst (csPrims st)) \/ k' = k).
    { destruct (existsb _ _) eqn:E.
      - apply existsb_exists in E as (k0 & Hk0 & E). apply Z.eqb_eq in E as <-. split; [auto|intros [H| ->]; assumption].
      - rewrite in_app_iff. cbn. split; intros [H|H]; auto. destruct H as [H|[]]; auto. }
    rewrite Q, P2. split.
    + intros [(g & Hg & E)| ->]; [exists g|exists f]; (split; [apply in_or_app|assumption]); [left; assumption|right; left; reflexivity].
    + intros (g & Hg & E). apply in_app_or in Hg as [Hg|[<-|[]]]; [left; eauto|right; congruence].
  - intros k' is_ Hi. apply add_triangle_in in Hi; [|exact P1].
    rewrite filter_app. cbn [filter]. unfold mapped at 2. rewrite Hk.
    destruct Hi as [[Ne Hi]|[-> [(i0 & Hi & ->)|[Hn ->]]]].
    + replace (k =? k') with false by (symmetry; apply Z.eqb_neq; congruence). rewrite app_nil_r.
      destruct (P3 _ _ Hi) as (tris & E & F). exists tris. split; [exact E|]. eapply forall2_weak; [|exact F]. exact FX.
    + rewrite Z.eqb_refl. destruct (P3 _ _ Hi) as (tris & -> & F). exists (tris ++ [t]).
      split; [rewrite concat_app; cbn; rewrite app_nil_r; reflexivity|].
      apply forall2_app_snoc; [eapply forall2_weak; [|exact F]; exact FX|apply FX; exact Hf].
    + rewrite Z.eqb_refl. exists [t]. split; [cbn; rewrite app_nil_r; reflexivity|].
      replace (filter (mapped k) done) with (@nil (face T)).
      * cbn. constructor; [apply FX; exact Hf|constructor].
      * symmetry. clear P3 FX. destruct (filter (mapped k) done) as [|g r] eqn:E; [reflexivity|]. exfalso. apply Hn, P2.
        assert (Hg : In g (filter (mapped k) done)) by (rewrite E; left; reflexivity).
        apply filter_In in Hg as [Hg Hm]. exists g. split; [exact Hg|]. unfold mapped in Hm.
        destruct (mmap (fMaterial g)) as [k'|]; [|discriminate]. apply Z.eqb_eq in Hm as ->. reflexivity.
Qed.

Lemma prims_ext st st' done : ext st st' -> csPrims st' = csPrims st -> prims_ok st done -> prims_ok st' done.
Proof.
  intros X E (P1 & P2 & P3). unfold prims_ok. rewrite E. split; [exact P1|]. split; [exact P2|].
  intros k is_ Hi. destruct (P3 _ _ Hi) as (tris & Et & F). exists tris. split; [exact Et|].
  eapply forall2_weak; [|exact F]. intros; eapply face_ext; eassumption.
Qed.
Lemma prims_skip st done f : mmap (fMaterial f) = None -> prims_ok st done -> prims_ok st (done ++ [f]).
Proof.
  intros Hf (P1 & P2 & P3). split; [exact P1|]. split.
  - intros k. rewrite P2. split; intros (g & Hg & E).
    + exists g. split; [apply in_or_app; left; exact Hg|exact E].
    + apply in_app_or in Hg as [Hg|[<-|[]]]; [eauto|congruence].
  - intros k is_ Hi. rewrite filter_app. cbn [filter]. unfold mapped at 2. rewrite Hf, app_nil_r. auto.
Qed.

Lemma conv_face_ok f st st1 done : inv st -> prims_ok st done -> face_nrm f -> face_idx f -> length (fVerts f) = 3%nat ->
  conv_face eps mmap skinned f st = Some st1 -> inv st1 /\ ext st st1 /\ prims_ok st1 (done ++ [f]).
Proof.
  intros I P Hf Hi H3 H. unfold conv_face in H. rewrite H3 in H. cbn in H.
  destruct (mmap (fMaterial f)) as [k|] eqn:Ek.
  2:{ injection H as <-. split; [exact I|]. split; [apply ext_refl|]. apply prims_skip; assumption. }
  assert (Fin : forall s0 ids s1, inv s0 -> ext st s0 -> csPrims s0 = csPrims st -> (fUVs f <> [] -> csUseUV s0 = true) ->
     (inv s1 /\ ext s0 s1 /\ length ids = length (fVerts f) /\ (forall j id, nth_error ids j = Some id -> corner_ok s1 f (0 + j) id) /\ csPrims s1 = csPrims s0) ->
     match ids with a :: b :: c :: _ => Some (set_prims s1 (add_triangle (csPrims s1) k [c; b; a])) | _ => None end = Some st1 ->
     inv st1 /\ ext st st1 /\ prims_ok st1 (done ++ [f])).
  { intros s0 ids s1 I0 X0 P0 U0 (I1 & X1 & L1 & C1 & E1) Hs.
    destruct ids as [|a [|b [|c r]]]; try discriminate. injection Hs as <-.
    split; [destruct I1; constructor; assumption|].
    split.
    - destruct (ext_trans _ _ _ X0 X1). constructor; assumption.
    - apply prims_add; [|exact Ek|].
      + eapply prims_ext; [exact (ext_trans _ _ _ X0 X1)|congruence|exact P].
      + exists a, b, c. split; [reflexivity|]. split; [apply (C1 0%nat); reflexivity|]. split; [apply (C1 1%nat); reflexivity|apply (C1 2%nat); reflexivity]. }
  destruct (fUVs f) as [|u0 us] eqn:Eu.
  - destruct (corners (plain_corner f) 0 (fVerts f) st) as [[ids s1]|] eqn:Ec; [|discriminate].
    eapply (Fin st ids s1); [exact I|apply ext_refl|reflexivity|intros Ne; contradiction| |exact H].
    eapply corners_ok; [|exact I|reflexivity|intros Ne; congruence|exact Ec].
    intros i x s id s' Is Hx _ Hc. eapply plain_corner_ok; try eassumption.
  - destruct (corners (uv_corner eps skinned f) 0 (fVerts f) (set_use_uv st true)) as [[ids s1]|] eqn:Ec; [|discriminate].
    assert (I0 : inv (set_use_uv st true)) by (destruct I; constructor; assumption).
    assert (X0 : ext st (set_use_uv st true)) by (constructor; cbn; [exists []; symmetry; apply app_nil_r|auto|eauto|auto]).
    eapply (Fin (set_use_uv st true) ids s1); [exact I0|exact X0|reflexivity|intros _; reflexivity| |exact H].
    eapply corners_ok; [|exact I0|reflexivity|intros _; reflexivity|exact Ec].
    intros i x s id s' Is Hx HU Hc. eapply uv_corner_ok; try eassumption. apply HU. rewrite Eu. discriminate.
Qed.

Lemma conv_gfaces_ok fs : forall st st1 done, inv st -> prims_ok st done -> Forall face_nrm fs -> Forall face_idx fs ->
  Forall (fun f => length (fVerts f) = 3%nat) fs ->
  conv_gfaces eps mmap skinned fs st = Some st1 -> inv st1 /\ prims_ok st1 (done ++ fs).
Proof.
  induction fs as [|f r IH]; intros st st1 done I P H1 H2 H3 H; cbn [conv_gfaces] in H.
  - injection H as <-. rewrite app_nil_r. auto.
  - destruct (conv_face eps mmap skinned f st) as [s|] eqn:E; [|discriminate].
    inversion H1; inversion H2; inversion H3; subst.
    destruct (conv_face_ok f st s done) as (I' & _ & P'); try assumption.
    apply (IH s st1 (done ++ [f])) in H; try assumption. rewrite <- app_assoc in H. exact H.
Qed.
End Mesh.
