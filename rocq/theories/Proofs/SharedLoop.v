(** The loop over objects that share geometry. *)
From Coq Require Import String List ZArith Bool Lia Reals Lra.
From Verif.Model Require Import Num NumR Vec Matrix Triangulate Mqo MqoDoc Mmd2Mqo Normals Mqo2Mmd Gltf Mqo2Gltf Mqo2GltfShared.
From Verif Require Import Spec.GeomSpec Spec.SharedSpec Proofs.MatrixLemmas Proofs.Mmd2MqoProofs Proofs.Mqo2MmdProofs Proofs.MqoObjProofs Proofs.GltfDoc Proofs.GltfTotal Spec.GltfSpec Proofs.SharedFaces Proofs.SharedProofs.
Import ListNotations.
Local Open Scope R_scope.

(** *** Primitives *)

Section Prims.
Context {T : Type} {N : Num T}.
Definition prim_with (a : gattrs T) (targets : list (list (vec3 T))) (p : Z * list Z) : prim T :=
  mkPrim (gaPos a) (gaUV a) (gaNormals a) (gaSkin a) targets (Some (snd p)) (Some (fst p)).

Lemma make_prims_at (a : gattrs T) targets prims : forall pre,
  all_some (fun im => option_map (fun is_ => mkPrim (gaPos a) (gaUV a) (gaNormals a) (gaSkin a) targets (Some is_) (Some (snd im)))
                                 (nth_error (pre ++ map snd prims) (fst im)))
           (combine (seq (length pre) (length prims)) (map fst prims)) = Some (map (prim_with a targets) prims).
Proof.
  induction prims as [|p r IH]; intros pre; [reflexivity|]. cbn [length seq map combine all_some fst snd].
  rewrite nth_error_app2, Nat.sub_diag by lia. cbn [nth_error option_map].
  specialize (IH (pre ++ [snd p])). rewrite app_length in IH. cbn [length] in IH. rewrite Nat.add_1_r in IH. rewrite <- app_assoc in IH. cbn [app] in IH.
  rewrite IH. reflexivity.
Qed.
Lemma make_prims_own (a : gattrs T) targets prims : make_prims a targets (map fst prims) (map snd prims) = Some (map (prim_with a targets) prims).
Proof. unfold make_prims. rewrite map_length. exact (make_prims_at a targets prims []). Qed.
End Prims.

(** *** What is drawn *)

Definition corner_at (m : option (mat4 R)) (a : gattrs R) (i : Z) : corner R :=
  (match gaPos a with Some ps => option_map (placed m) (zidx ps i) | None => None end, match gaUV a with Some us => zidx us i | None => None end).

Lemma drawn_moved m a0 a1 t0 t1 v prims :
  (prims <> [] -> forall i, corner_at m a0 i = (option_map (fun q => v3add q v) (fst (corner_at None a1 i)), snd (corner_at None a1 i))) ->
  map (drawn_prim m) (map (prim_with a0 t0) prims) = moved v (map (drawn_prim None) (map (prim_with a1 t1) prims)).
Proof.
  intros H. destruct prims as [|p r]; [reflexivity|]. assert (NE : p :: r <> []) by discriminate. specialize (H NE). clear NE.
  unfold moved. rewrite !map_map. apply map_ext. intros q. unfold drawn_prim, prim_with. cbn [gpMaterial gpIndices fst snd].
  apply f_equal. rewrite map_map. apply map_ext. intros i. specialize (H i). exact H.
Qed.

Lemma drawn_mesh_of m name ps names : drawn_mesh m (match ps with [] => None | _ => Some (mkMesh name ps names) end) = map (drawn_prim m) ps.
Proof. destruct ps; reflexivity. Qed.

(** *** Keys *)

Lemma filter_split {A} (p : A -> bool) l : forall x t, filter p l = x :: t -> exists l1 l2, l = l1 ++ x :: l2 /\ p x = true /\ filter p l2 = t.
Proof.
  induction l as [|a l IH]; intros x t H; cbn [filter] in H; [discriminate|]. destruct (p a) eqn:E.
  - injection H as <- <-. exists [], l. auto.
  - destruct (IH _ _ H) as (l1 & l2 & -> & P1 & P2). exists (a :: l1), l2. auto.
Qed.

Definition has_key (k : string) (o : sobj R) : bool := match soKey o with Some k' => String.eqb k' k | None => false end.
Lemma has_key_spec k o : has_key k o = true <-> soKey o = Some k.
Proof. unfold has_key. destruct (soKey o) as [k'|]; [|split; discriminate]. rewrite String.eqb_eq. split; congruence. Qed.

Lemma reused_count os k : (1 <? key_count os k)%nat = true <-> reused os k.
Proof.
  unfold key_count. fold (has_key k). change (fun o : sobj R => match soKey o with Some k' => String.eqb k' k | None => false end) with (has_key k).
  rewrite Nat.ltb_lt. split.
  - intros H. destruct (filter (has_key k) os) as [|a [|b t]] eqn:E; cbn in H; try lia.
    destruct (filter_split _ _ _ _ E) as (l & r & -> & K1 & E2). destruct (filter_split _ _ _ _ E2) as (m & r2 & -> & K2 & _).
    exists l, a, m, b, r2. rewrite <- !has_key_spec. auto.
  - intros (l & a & m & b & r & -> & K1 & K2). apply has_key_spec in K1, K2. rewrite filter_app, app_length. cbn [filter]. rewrite K1. cbn [length].
    rewrite filter_app, app_length. cbn [filter]. rewrite K2. cbn [length]. lia.
Qed.

(** *** The loop *)

Section Loop.
Variables (scale centi eps : R) (unlit : bool) (acc0 : list (vec3 R)) (acc0uv : list (vec2 R)).
Variables (bones : list (bone R)) (node_of : Z -> option nat) (mmap : Z -> option Z) (morphs : object R -> option (list (object R))) (all : list (sobj R)).
Hypothesis RU : reusable mmap all.

Notation run reuse := (conv_shared scale centi eps unlit acc0 acc0uv reuse false bones node_of mmap morphs all).
Notation prts o mo := (object_parts scale centi eps unlit o bones node_of mo mmap).

Definition known (done : list (sobj R)) (cs : caches) : Prop := forall k, reused all k ->
  (cache_of cs k = gcache0 /\ Forall (fun x => soKey x = Some k -> oVisible (soObj x) = false) done) \/
  (exists o0 t0 mo p0, first_with all k o0 /\ oInternal (soObj o0) = Some t0 /\ prts (soObj o0) mo = Some p0 /\
     cache_of cs k = mkGC (Some (mat_inverse t0)) (Some (paAttrs p0)) (map snd (paPrims p0))).

Definition agrees (o : sobj R) (n0 n : snode R) : Prop :=
  snJoints n = snJoints n0 /\ (oVisible (soObj o) = false -> drawn n = [] /\ drawn n0 = []) /\
  (oVisible (soObj o) = true -> exists v, displaced scale all o v /\ drawn n = moved v (drawn n0)).

Lemma moved_zero l : moved origin l = l.
Proof.
  unfold moved. rewrite <- (map_id l) at 2. apply map_ext. intros [m cs]. cbn [fst snd]. apply f_equal. rewrite <- (map_id cs) at 2. apply map_ext.
  intros [p u]. cbn [fst snd]. destruct p as [[x y z]|]; [|reflexivity]. cbn [option_map]. f_equal. f_equal. unfold v3add, origin. mproj; rnum. comps; ring.
Qed.

(** The corner of a copy that uses the vertices of the first one. *)
Lemma copy_corner (o0 o : object R) t0 t mo0 mo p0 p1 au i : copies mmap o0 o t0 t -> affine t0 -> mat_det t0 <> 0 ->
  prts o0 mo0 = Some p0 -> prts o mo = Some p1 -> paPrims p1 <> [] ->
  gaPos au = gaPos (paAttrs p0) -> gaUV au = gaUV (paAttrs p0) ->
  let v := v3scale (v3sub (mat_apply t origin) (mat_apply t (mat_apply (mat_inverse t0) origin))) (scale - 1) in
  corner_at (Some (mat_mul (mat_translation_scale t scale) (mat_inverse t0))) au i =
  (option_map (fun q => v3add q v) (fst (corner_at None (paAttrs p1) i)), snd (corner_at None (paAttrs p1) i)).
Proof.
  intros C A D E0 E1 NE HP HU v. destruct (copies_parts _ _ _ _ _ _ _ _ _ _ _ _ _ _ _ _ _ C E0 E1) as (_ & _ & EU & _ & pts & Hn & P0 & P1 & _).
  unfold corner_at. rewrite HP, HU, EU, P0, P1. destruct pts as [|x xs]; [exfalso; apply NE, Hn; reflexivity|]. apply f_equal2; [|reflexivity].
  cbn [fst]. rewrite !zidx_map. destruct (zidx (x :: xs) i) as [p|]; [|reflexivity]. cbn [option_map placed]. apply f_equal. subst v. apply copy_point; assumption.
Qed.

Lemma corner_rows (m : mat4 R) a i : 
  corner_at (Some (mkM (m0 m) (m1 m) (m2 m) 0 (m4 m) (m5 m) (m6 m) 0 (m8 m) (m9 m) (m10 m) 0 (m12 m) (m13 m) (m14 m) 1)) a i = corner_at (Some m) a i.
Proof.
  unfold corner_at. apply f_equal2; [|reflexivity]. destruct (gaPos a) as [ps|]; [|reflexivity]. destruct (zidx ps i); [|reflexivity]. cbn [option_map placed].
  apply f_equal. apply apply_rows.
Qed.

Lemma loop os : forall done cs ns0, all = done ++ os -> known done cs -> run false os [] = Some ns0 ->
  exists ns, run true os cs = Some ns /\ Forall2 (fun o p => agrees o (fst p) (snd p)) os (combine ns0 ns) /\ length ns = length os /\ length ns0 = length os.
Proof.
  induction os as [|o r IH]; intros done cs ns0 EA K H; cbn [conv_shared] in H |- *; [injection H as <-; exists []; repeat split; constructor|].
  destruct (morphs (soObj o)) as [mo|]; [|discriminate].
  assert (EA' : all = (done ++ [o]) ++ r) by (rewrite <- app_assoc; exact EA).
  destruct (oVisible (soObj o)) eqn:EV.
  2:{ destruct (run false r []) as [l0|] eqn:E0; [|discriminate]. cbn [option_map] in H. injection H as <-.
      destruct (IH (done ++ [o]) cs l0 EA') as (ns & E1 & F & L & L0).
      - intros k Rk. destruct (K k Rk) as [(C & V)|X]; [left; split; [exact C|]|right; exact X]. apply Forall_app. split; [exact V|]. constructor; [|constructor]. intros _. exact EV.
      - reflexivity.
      - rewrite E1. cbn [option_map]. eexists. split; [reflexivity|]. cbn [combine length]. rewrite L, L0. repeat split. constructor; [|exact F].
        split; [reflexivity|]. split; [intros _; split; reflexivity|]. cbn [fst snd]. intros Q. rewrite EV in Q. discriminate. }
  cbn [find_shared andb] in H. assert (find_shared false all [] o = Some None) as ES by (unfold find_shared; destruct (soKey o); reflexivity).
  rewrite ES in H. cbn [option_map] in H. destruct (prts (soObj o) mo) as [p|] eqn:EP; [|discriminate].
  unfold shared_mesh in H at 1. rewrite make_prims_own in H. cbn [option_map gmPrims] in H.
  destruct (run false r []) as [l0|] eqn:E0; [|discriminate]. cbn [option_map] in H. injection H as <-.
  unfold find_shared.
  destruct (soKey o) as [k|] eqn:EK; [destruct (1 <? key_count all k)%nat eqn:EC|].
  - (* shared *) cbn [andb]. assert (Rk : reused all k) by (apply reused_count; exact EC).
    assert (INo : In o all) by (rewrite EA; apply in_or_app; right; left; reflexivity).
    destruct (K k Rk) as [(C & V)|(o0 & t0 & mo0 & p0 & FW & I0 & P0 & C)].
    + (* the first *) rewrite C. cbn [gcMatrix gcache0 gcAttrs gcIndices].
      destruct (RU k o o Rk INo INo EK EK EV EV) as (ta & tb & Ia & Ib & Aa & Ab & Da & Cp). rewrite Ia in Ib. injection Ib as <-. rewrite Ia. cbn [option_map snd].
      destruct (copies_parts _ _ _ _ _ _ _ _ _ _ _ _ _ _ _ _ _ Cp EP EP) as (NP & _).
      unfold shared_mesh. rewrite NP. cbn [gcAttrs gcIndices gcMatrix app]. rewrite make_prims_own. cbn [option_map gmPrims].
      assert (FW : first_with all k o) by (exists done, r; auto).
      match goal with |- context [run true r ?c] => set (cs1 := c) end.
      destruct (IH (done ++ [o]) cs1 l0 EA') as (ns & E1 & F & L & L0); [|reflexivity|].
      { intros k' Rk'. unfold cs1. cbn [cache_of]. destruct (String.eqb_spec k k') as [<-|NE].
        - right. exists o, ta, mo, p. auto.
        - destruct (K k' Rk') as [(C' & V')|X]; [left; split; [exact C'|]|right; exact X]. apply Forall_app. split; [exact V'|]. constructor; [|constructor]. intros Q. congruence. }
      rewrite E1. cbn [option_map]. eexists. split; [reflexivity|]. cbn [combine length]. rewrite L, L0. repeat split. constructor; [|exact F]. cbn [fst snd].
      split; [reflexivity|]. split; [intros Q; rewrite EV in Q; discriminate|]. intros _.
      eexists. split.
      * left. exists k, o, ta, ta, (mat_apply (mat_inverse ta) origin). repeat (split; [assumption|]). split; [apply point_inverse; assumption|reflexivity].
      * unfold drawn. cbn [snMesh snMatrix]. rewrite !drawn_mesh_of. apply drawn_moved. intros NE i. unfold node_matrix. cbn [andb orb]. rewrite Ia. cbn [gcMatrix].
        change (@nzero R RNum) with 0. change (@none R RNum) with 1. rewrite corner_rows. eapply copy_corner; try eassumption; reflexivity.
    + (* a copy *) rewrite C. cbn [gcMatrix option_map snd].
      assert (IN0 : In o0 all). { destruct FW as (u & w & -> & _). apply in_or_app. right. left. reflexivity. }
      pose proof FW as (_ & _ & _ & K0 & V0 & _).
      destruct (RU k o0 o Rk IN0 INo K0 EK V0 EV) as (ta & tb & Ia & Ib & Aa & Ab & Da & Cp). rewrite I0 in Ia. injection Ia as <-.
      destruct (copies_parts _ _ _ _ _ _ _ _ _ _ _ _ _ _ _ _ _ Cp P0 EP) as (NP & QU & QV & QI & pts & Hn & HP0 & HP1 & HU & HU0).
      unfold shared_mesh. rewrite NP. cbn [gcAttrs gcIndices gcMatrix]. rewrite <- QI. rewrite make_prims_own. cbn [option_map gmPrims].
      match goal with |- context [run true r ?c] => set (cs1 := c) end.
      destruct (IH (done ++ [o]) cs1 l0 EA') as (ns & E1 & F & L & L0); [|reflexivity|].
      { intros k' Rk'. unfold cs1. cbn [cache_of]. destruct (String.eqb_spec k k') as [<-|NE].
        - right. exists o0, t0, mo0, p0. rewrite QI. auto.
        - destruct (K k' Rk') as [(C' & V')|X]; [left; split; [exact C'|]|right; exact X]. apply Forall_app. split; [exact V'|]. constructor; [|constructor]. intros Q. congruence. }
      rewrite E1. cbn [option_map]. eexists. split; [reflexivity|]. cbn [combine length]. rewrite L, L0. repeat split. constructor; [|exact F]. cbn [fst snd].
      split; [reflexivity|]. split; [intros Q; rewrite EV in Q; discriminate|]. intros _.
      eexists. split.
      * left. exists k, o0, t0, tb, (mat_apply (mat_inverse t0) origin). repeat (split; [assumption|]). split; [apply point_inverse; assumption|reflexivity].
      * unfold drawn. cbn [snMesh snMatrix]. rewrite !drawn_mesh_of. apply drawn_moved. intros NE i. unfold node_matrix. cbn [andb orb]. rewrite Ib. cbn [gcMatrix].
        change (@nzero R RNum) with 0. change (@none R RNum) with 1. rewrite corner_rows. eapply copy_corner; try eassumption; cbn [gaPos gaUV].
        -- rewrite HP0. destruct pts; [exfalso; apply NE, Hn; reflexivity|reflexivity].
        -- destruct (paUseUV p) eqn:EU.
           ++ assert (pts <> []) as NP' by (intros ->; apply NE, Hn; reflexivity). specialize (HU (eq_sym QU) NP'). destruct (gaUV (paAttrs p0)); [reflexivity|congruence].
           ++ symmetry. exact (no_uv _ _ _ _ _ _ _ _ _ _ P0 (eq_sym QU)).
  - (* not shared *) cbn [andb option_map]. unfold shared_mesh at 1. rewrite make_prims_own. cbn [option_map gmPrims].
    destruct (IH (done ++ [o]) cs l0 EA') as (ns & E1 & F & L & L0); [|reflexivity|].
    { intros k' Rk'. destruct (K k' Rk') as [(C' & V')|X]; [left; split; [exact C'|]|right; exact X]. apply Forall_app. split; [exact V'|]. constructor; [|constructor].
      intros Q. rewrite EK in Q. injection Q as <-. apply reused_count in Rk'. congruence. }
    rewrite E1. cbn [option_map]. eexists. split; [reflexivity|]. cbn [combine length]. rewrite L, L0. repeat split. constructor; [|exact F]. cbn [fst snd].
    split; [reflexivity|]. split; [intros Q; rewrite EV in Q; discriminate|]. intros _. exists origin. split; [|rewrite moved_zero; reflexivity].
    right. split; [|reflexivity]. intros k' Q Rk'. rewrite EK in Q. injection Q as <-. apply reused_count in Rk'. congruence.
  - cbn [option_map]. unfold shared_mesh at 1. rewrite make_prims_own. cbn [option_map gmPrims].
    destruct (IH (done ++ [o]) cs l0 EA') as (ns & E1 & F & L & L0); [|reflexivity|].
    { intros k' Rk'. destruct (K k' Rk') as [(C' & V')|X]; [left; split; [exact C'|]|right; exact X]. apply Forall_app. split; [exact V'|]. constructor; [|constructor].
      intros Q. congruence. }
    rewrite E1. cbn [option_map]. eexists. split; [reflexivity|]. cbn [combine length]. rewrite L, L0. repeat split. constructor; [|exact F]. cbn [fst snd].
    split; [reflexivity|]. split; [intros Q; rewrite EV in Q; discriminate|]. intros _. exists origin. split; [|rewrite moved_zero; reflexivity].
    right. split; [|reflexivity]. intros k' Q. congruence.
Qed.
End Loop.

(** *** The nodes of a document *)

Lemma forall2_combine_nth {A B C} (P : A -> B -> C -> Prop) l : forall m n, Forall2 (fun x p => P x (fst p) (snd p)) l (combine m n) ->
  forall i a b c, nth_error l i = Some a -> nth_error m i = Some b -> nth_error n i = Some c -> P a b c.
Proof.
  induction l as [|x l IH]; intros [|y m] [|z n] F [|i] a b c Ha Hb Hc; try discriminate; cbn in *; inversion F; subst.
  - injection Ha as <-. injection Hb as <-. injection Hc as <-. assumption.
  - eapply IH; eassumption.
Qed.

Section Top.
Variables (scale centi eps : R) (unlit : bool) (acc0 : list (vec3 R)) (acc0uv : list (vec2 R)).
Variables (bones : list (bone R)) (node_of : Z -> option nat) (mmap : Z -> option Z) (morphs : object R -> option (list (object R))) (os : list (sobj R)).
Notation run reuse := (conv_shared scale centi eps unlit acc0 acc0uv reuse false bones node_of mmap morphs os os []).

Theorem reuse_offset ns0 : reusable mmap os -> run false = Some ns0 ->
  exists ns, run true = Some ns /\ length ns = length os /\
    forall i o n0 n, nth_error os i = Some o -> nth_error ns0 i = Some n0 -> nth_error ns i = Some n ->
      snJoints n = snJoints n0 /\ (oVisible (soObj o) = false -> drawn n = [] /\ drawn n0 = []) /\
      (oVisible (soObj o) = true -> exists v, displaced scale os o v /\ drawn n = moved v (drawn n0)).
Proof.
  intros RU H. destruct (loop scale centi eps unlit acc0 acc0uv bones node_of mmap morphs os RU os [] [] ns0 eq_refl) as (ns & E & F & L & _).
  - intros k _. left. split; [reflexivity|constructor].
  - exact H.
  - exists ns. split; [exact E|]. split; [exact L|]. intros i o n0 n. apply (forall2_combine_nth (agrees scale os) _ _ _ F).
Qed.

Lemma displaced_none o v : reusable mmap os -> In o os -> oVisible (soObj o) = true ->
  (scale = 1 \/ forall k o0 t0, reused os k -> first_with os k o0 -> oInternal (soObj o0) = Some t0 -> mat_apply t0 origin = origin) ->
  displaced scale os o v -> v = origin.
Proof.
  intros RU Ho V H [(k & o0 & t0 & t & q & K & Rk & FW & I0 & I & Q & ->)|(_ & ->)]; [|reflexivity].
  destruct H as [->|H].
  - destruct (v3sub _ _) as [x y z]. unfold v3scale, origin; mproj; rnum; comps; ring.
  - assert (In o0 os) as IN0. { destruct FW as (l & r & -> & _). apply in_or_app. right. left. reflexivity. }
    pose proof FW as (_ & _ & _ & K0 & V0 & _).
    destruct (RU k o0 o Rk IN0 Ho K0 K V0 V) as (ta & tb & Ia & _ & Aa & _ & Da & _). rewrite I0 in Ia. injection Ia as <-.
    assert (q = origin) as ->.
    { rewrite <- (inverse_point t0 q Aa Da), Q. pose proof (inverse_point t0 origin Aa Da) as W. rewrite (H k o0 t0 Rk FW I0) in W. exact W. }
    destruct (mat_apply t origin) as [x y z]. unfold v3scale, v3sub, origin; mproj; rnum; comps; ring.
Qed.

Theorem reuse_same ns0 : reusable mmap os -> run false = Some ns0 ->
  (scale = 1 \/ forall k o0 t0, reused os k -> first_with os k o0 -> oInternal (soObj o0) = Some t0 -> mat_apply t0 origin = origin) ->
  exists ns, run true = Some ns /\ length ns = length ns0 /\
    forall i n0 n, nth_error ns0 i = Some n0 -> nth_error ns i = Some n -> snJoints n = snJoints n0 /\ drawn n = drawn n0.
Proof.
  intros RU H S0. destruct (loop scale centi eps unlit acc0 acc0uv bones node_of mmap morphs os RU os [] [] ns0 eq_refl) as (ns & E & F & L & L0).
  - intros k _. left. split; [reflexivity|constructor].
  - exact H.
  - exists ns. split; [exact E|]. split; [congruence|]. intros i n0 n H0 H1.
    destruct (nth_error os i) as [o|] eqn:Ho.
    2:{ apply nth_error_None in Ho. assert (nth_error ns i <> None) as Q by congruence. apply nth_error_Some in Q. lia. }
    destruct (forall2_combine_nth (agrees scale os) _ _ _ F _ _ _ _ Ho H0 H1) as (J & A & B). split; [exact J|].
    destruct (oVisible (soObj o)) eqn:V.
    + destruct (B eq_refl) as (v & D & ->). assert (v = origin) as ->; [|apply moved_zero].
      eapply displaced_none; try eassumption. eapply nth_error_In; exact Ho.
    + destruct (A eq_refl) as (-> & ->). reflexivity.
Qed.
End Top.

(** *** Without the options *)

Section Plain.
Context {T : Type} {N : Num T}.
Variables (scale centi eps : T) (unlit : bool) (acc0 : list (vec3 T)) (acc0uv : list (vec2 T)).

Lemma parts_convert (o : object T) bones node_of mo mmap :
  convert_object scale centi eps unlit o bones node_of mo mmap =
  option_map (fun p => (mkMesh (oName o) (map (prim_with (paAttrs p) (paTargets p)) (paPrims p)) (map (@oName T) mo), paJoints p))
             (object_parts scale centi eps unlit o bones node_of mo mmap).
Proof.
  unfold convert_object, object_parts. destruct (fixh_normals o) as [o1|]; [|reflexivity]. destruct (triangulate_object o1) as [o2|]; [|reflexivity].
  destruct (get_weights _ _ _) as [[ids inf]|]; [|reflexivity]. destruct (conv_gfaces _ _ _ _ _) as [st|]; [|reflexivity].
  destruct (all_some _ mo) as [tg|]; [|reflexivity]. destruct (all_some node_of ids) as [js|]; reflexivity.
Qed.

Theorem plain_nodes bones node_of mmap morphs (all : list (sobj T)) os : forall ns,
  conv_shared scale centi eps unlit acc0 acc0uv false false bones node_of mmap morphs all os [] = Some ns ->
  Forall2 (fun o n => if oVisible (soObj o)
     then exists mo mesh, morphs (soObj o) = Some mo /\ convert_object scale centi eps unlit (soObj o) bones node_of mo mmap = Some (mesh, snJoints n) /\
          snMesh n = (match gmPrims mesh with [] => None | _ => Some mesh end) /\ snMatrix n = None
     else n = mkSN None [] None) os ns.
Proof.
  induction os as [|o r IH]; intros ns H; cbn [conv_shared] in H; [injection H as <-; constructor|].
  destruct (morphs (soObj o)) as [mo|] eqn:EM; [|discriminate]. destruct (oVisible (soObj o)) eqn:EV.
  - assert (find_shared false all [] o = Some None) as ES by (unfold find_shared; destruct (soKey o); reflexivity). rewrite ES in H. cbn [option_map] in H.
    destruct (object_parts _ _ _ _ _ _ _ _ _) as [p|] eqn:EP; [|discriminate]. unfold shared_mesh in H at 1. rewrite make_prims_own in H. cbn [option_map gmPrims] in H.
    destruct (conv_shared _ _ _ _ _ _ _ _ _ _ _ _ _ r []) as [l|]; [|discriminate]. cbn [option_map] in H. injection H as <-. constructor; [|apply IH; reflexivity].
    rewrite EV. eexists mo, _. split; [exact EM|]. rewrite parts_convert, EP. cbn [option_map snJoints snMesh snMatrix gmPrims]. split; [reflexivity|]. split; reflexivity.
  - destruct (conv_shared _ _ _ _ _ _ _ _ _ _ _ _ _ r []) as [l|]; [|discriminate]. cbn [option_map] in H. injection H as <-. constructor; [rewrite EV; reflexivity|apply IH; reflexivity].
Qed.

Theorem plain_total objs sets bones base mmap (all os : list (sobj T)) : Forall (fun o => exportable objs sets bones (soObj o)) os ->
  exists ns, conv_shared scale centi eps unlit acc0 acc0uv false false bones (bone_node base bones) mmap (morph_objects objs sets) all os [] = Some ns.
Proof.
  induction 1 as [|o r Ho F (ns & IH)]; cbn [conv_shared]; [eauto|].
  destruct (morph_objects_total objs sets bones (soObj o) Ho) as (mo & -> & HM). rewrite IH. destruct (oVisible (soObj o)); [|cbn; eauto].
  assert (find_shared false all [] o = Some None) as ES by (unfold find_shared; destruct (soKey o); reflexivity). rewrite ES. cbn [option_map].
  destruct (convert_object_total scale centi eps unlit objs sets bones (soObj o) base mo mmap Ho HM) as (mesh & js & E & _). rewrite parts_convert in E.
  destruct (object_parts _ _ _ _ _ _ _ _ _) as [p|]; [|discriminate]. unfold shared_mesh at 1. rewrite make_prims_own. cbn [option_map]. rewrite IH. cbn [option_map]. eauto.
Qed.

(** *** Trees *)

Lemma place_edges ign l : forall i path g g', place ign i l path g = Some g' -> 
  forall pre, length pre = i -> Forall (fun p => exists d, nth_error (pre ++ l) p = Some (d, true)) path ->
  forall p c, In (p, c) (grEdges g') -> In (p, c) (grEdges g) \/ exists d, nth_error (pre ++ l) p = Some (d, true).
Proof.
  induction l as [|[d b] l IH]; intros i path g g' H pre L F p c Hin; cbn [place] in H; [injection H as <-; left; exact Hin|].
  destruct (d <? 0)%Z; [discriminate|].
  set (path1 := if (d <? Z.of_nat (length path))%Z then firstn (Z.to_nat d) path else path) in *.
  assert (F1 : Forall (fun p => exists d', nth_error (pre ++ (d, b) :: l) p = Some (d', true)) path1).
  { unfold path1. destruct (d <? _)%Z; [|exact F]. rewrite Forall_forall in F |- *. intros x Hx. apply F. rewrite <- (firstn_skipn (Z.to_nat d) path). apply in_or_app. left. exact Hx. }
  specialize (IH _ _ _ _ H (pre ++ [(d, b)])). rewrite <- app_assoc in IH. cbn [app] in IH. rewrite app_length in IH. cbn [length] in IH.
  destruct (IH ltac:(lia)) with (p := p) (c := c) as [Q|Q]; [|exact Hin| |right; exact Q].
  - destruct b; [|exact F1]. apply Forall_app. split; [exact F1|]. constructor; [|constructor]. exists d. rewrite nth_error_app2, L, Nat.sub_diag by lia. reflexivity.
  - destruct (if ign then None else nth_error (rev path1) 0) as [q|] eqn:E; [|left; exact Q].
    cbn [add_edge grEdges] in Q. apply in_app_or in Q as [Q|[Q|[]]]; [left; exact Q|]. injection Q as -> ->. right.
    destruct ign; [discriminate|]. apply nth_error_In in E. apply in_rev in E. rewrite Forall_forall in F1. exact (F1 _ E).
Qed.

Theorem parents_plain reuse lights ign bones node_of mmap morphs (os : list (sobj T)) g ns g' :
  shared_nodes scale centi eps unlit acc0 acc0uv reuse lights ign bones node_of mmap morphs os g = Some (ns, g') ->
  forall p c, In (p, c) (grEdges g') -> In (p, c) (grEdges g) \/ exists n, nth_error ns p = Some n /\ default_matrix n = true.
Proof.
  unfold shared_nodes. destruct (conv_shared _ _ _ _ _ _ _ _ _ _ _ _ _ _ _) as [l|]; [|discriminate]. intros H.
  destruct (place _ _ _ _ _) as [g1|] eqn:E; [|discriminate]. cbn [option_map] in H. injection H as <- <-. intros p c Hin.
  destruct (place_edges _ _ _ _ _ _ E [] eq_refl (Forall_nil _) p c Hin) as [Q|(d & Q)]; [left; exact Q|right].
  cbn [app] in Q. rewrite nth_error_map in Q. destruct (nth_error (combine os l) p) as [[o n]|] eqn:EC; [|discriminate]. cbn [option_map fst snd] in Q. injection Q as _ Q.
  exists n. split; [|exact Q]. clear - EC. revert l p EC. induction os as [|x os IH]; intros [|y l] [|p] EC; try discriminate; cbn in EC |- *; [injection EC as _ <-; reflexivity|apply IH; exact EC].
Qed.
End Plain.

Lemma default_placed (n : snode R) v : default_matrix n = true -> placed (snMatrix n) v = v.
Proof.
  unfold default_matrix. destruct (snMatrix n) as [m|]; [|reflexivity]. unfold meqb. intros H. rewrite !andb_true_iff in H. rnum.
  repeat match goal with H : _ /\ _ |- _ => destruct H end. repeat match goal with H : Reqb _ _ = true |- _ => apply Reqb_true in H end.
  cbn [placed]. rewrite <- (mat_apply_id v) at 2. destruct m; unfold mat_id, mat_apply in *; mproj; rnum; subst. reflexivity.
Qed.
