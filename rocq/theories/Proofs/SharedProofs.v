(** Objects that share geometry are drawn as copies, moved by a constant. *)
From Coq Require Import String List ZArith Bool Lia Reals Lra.
From Verif.Model Require Import Num NumR Vec Matrix Triangulate Mqo MqoDoc Mmd2Mqo Normals Mqo2Mmd Gltf Mqo2Gltf Mqo2GltfShared.
From Verif Require Import Spec.GeomSpec Spec.SharedSpec Proofs.MatrixLemmas Proofs.Mmd2MqoProofs Proofs.Mqo2MmdProofs Proofs.MqoObjProofs Proofs.GltfDoc Proofs.SharedFaces.
Import ListNotations.
Local Open Scope R_scope.

(** *** Matrices *)

Lemma apply_comb (m : mat4 R) s a b :
  mat_apply m (v3add (v3scale a s) (v3scale b (1 - s))) = v3add (v3scale (mat_apply m a) s) (v3scale (mat_apply m b) (1 - s)).
Proof. mdestr; unfold mat_apply, v3add, v3scale; mproj; rnum; comps; ring. Qed.

Lemma apply_ts (m : mat4 R) s v : mat_apply (mat_translation_scale m s) v = v3add (mat_apply m v) (v3scale (mat_apply m origin) (s - 1)).
Proof. mdestr; unfold mat_apply, mat_translation_scale, v3add, v3scale, origin; mproj; rnum; comps; ring. Qed.

Lemma inverse_point (t : mat4 R) v : affine t -> mat_det t <> 0 -> mat_apply (mat_inverse t) (mat_apply t v) = v.
Proof. intros A D. rewrite <- mat_apply_mul by exact A. rewrite (mat_inverse_l t D). apply mat_apply_id. Qed.
Lemma point_inverse (t : mat4 R) v : affine t -> mat_det t <> 0 -> mat_apply t (mat_apply (mat_inverse t) v) = v.
Proof. intros A D. rewrite <- mat_apply_mul by (apply affine_inverse; assumption). rewrite (mat_inverse_r t D). apply mat_apply_id. Qed.

Lemma apply_rows (m : mat4 R) a b c d v :
  mat_apply (mkM (m0 m) (m1 m) (m2 m) a (m4 m) (m5 m) (m6 m) b (m8 m) (m9 m) (m10 m) c (m12 m) (m13 m) (m14 m) d) v = mat_apply m v.
Proof. destruct m; reflexivity. Qed.

Lemma scaled_comb (v : vec3 R) s : v3scaled s v = v3add (v3scale v s) (v3scale origin (1 - s)).
Proof. mdestr; unfold v3scaled, v3add, v3scale, origin; mproj; rnum; comps; ring. Qed.

(** What the node matrix does to a vertex of the first copy. *)
Lemma copy_point (t0 t : mat4 R) s p : affine t0 -> mat_det t0 <> 0 ->
  mat_apply (mat_mul (mat_translation_scale t s) (mat_inverse t0)) (v3scaled s (mat_apply t0 p)) =
  v3add (v3scaled s (mat_apply t p)) (v3scale (v3sub (mat_apply t origin) (mat_apply t (mat_apply (mat_inverse t0) origin))) (s - 1)).
Proof.
  intros A D. rewrite mat_apply_mul by (apply affine_inverse; assumption). rewrite scaled_comb, apply_comb, (inverse_point t0 p A D).
  rewrite apply_ts, apply_comb. generalize (mat_apply t (mat_apply (mat_inverse t0) origin)) as x. generalize (mat_apply t origin) as y. generalize (mat_apply t p) as z.
  intros [a b c] [d e f] [g h i]. unfold v3scaled, v3add, v3sub, v3scale; mproj; rnum; comps; ring.
Qed.

(** *** Objects *)

Section Parts.
Context {T : Type} {N : Num T}.
Variables (scale centi eps : T) (unlit : bool) (acc0 : list (vec3 T)) (acc0uv : list (vec2 T)).

Definition keeps (f f' : face T) : Prop := fVerts f' = fVerts f /\ fUVs f' = fUVs f /\ fMaterial f' = fMaterial f.

Lemma fix_keeps sm fs : forall fs', fix_normals sm fs = Some fs' -> Forall2 keeps fs fs'.
Proof.
  induction fs as [|f r IH]; intros fs' H; cbn [fix_normals] in H; [injection H as <-; constructor|].
  destruct (Nat.eqb _ _).
  - destruct (fix_normals sm r) as [l|]; [|discriminate]. injection H as <-. constructor; [repeat split|apply IH; reflexivity].
  - destruct sm as [ns|]; [|discriminate]. destruct (all_some _ _) as [vl|]; [|discriminate]. destruct (fix_normals (Some ns) r) as [l|]; [|discriminate].
    injection H as <-. constructor; [repeat split|apply IH; reflexivity].
Qed.
Lemma fixh_keeps (o o1 : object T) : fixh_normals o = Some o1 -> o1 = set_faces o (oFaces o1) /\ Forall2 keeps (oFaces o) (oFaces o1).
Proof.
  unfold fixh_normals. intros H. destruct (fix_normals _ _) as [fs|] eqn:E; [|discriminate]. cbn in H. injection H as <-.
  split; [reflexivity|]. exact (fix_keeps _ _ _ E).
Qed.

Lemma triangles_stay (o : object T) : Forall (fun f => length (fVerts f) = 3%nat) (oFaces o) -> triangulate_object o = Some (set_faces o (oFaces o)).
Proof.
  intros F. unfold triangulate_object.
  assert (E : all_some (triangulate_face (oVerts o)) (oFaces o) = Some (map (fun f => [f]) (oFaces o))).
  { induction F as [|f l Hf F IH]; [reflexivity|]. cbn [all_some map]. unfold triangulate_face at 1. rewrite Hf. cbn [Nat.eqb]. rewrite IH. reflexivity. }
  rewrite E. f_equal. f_equal. clear. induction (oFaces o) as [|f l IH]; [reflexivity|]. cbn [map concat app]. rewrite IH. reflexivity.
Qed.

(** The state of the loop for an object of triangles. *)
Definition start (vs : list (vec3 T)) (sk : list (infl T)) : cstate T :=
  mkCS vs (map Z.of_nat (seq 0 (length vs))) (repeat v2zero (length vs)) (repeat v3zero (length vs)) sk [] false [].

Lemma parts_inv (o : object T) bones node_of morphs mmap p : object_parts scale centi eps unlit o bones node_of morphs mmap = Some p ->
  Forall (fun f => length (fVerts f) = 3%nat) (oFaces o) ->
  exists skinned sk fs st, Forall2 keeps (oFaces o) fs /\
    conv_gfaces eps mmap skinned fs (start (map (v3scaled scale) (oVerts o)) sk) = Some st /\
    gaPos (paAttrs p) = (match csVerts st with [] => None | _ => Some (csVerts st) end) /\
    gaUV (paAttrs p) = (if csUseUV st then match csVerts st with [] => None | _ => Some (csUV st) end else None) /\
    paUseUV p = csUseUV st /\ paPrims p = csPrims st /\ paPartial p = is_partial mmap fs.
Proof.
  unfold object_parts. intros H F. destruct (fixh_normals o) as [o1|] eqn:E1; [|discriminate]. destruct (fixh_keeps _ _ E1) as (Eo & K).
  rewrite triangles_stay in H.
  2:{ clear - F K. revert F. induction K as [|f f' l l' (A & _) K IH]; intros F; [constructor|]. inversion F; subst. constructor; [rewrite A; assumption|auto]. }
  destruct (get_weights _ _ _) as [[ids inf]|]; [|discriminate].
  assert (EV : oVerts (set_faces o1 (oFaces o1)) = oVerts o) by (rewrite Eo; reflexivity). rewrite EV in H. cbn [oFaces set_faces] in H.
  match type of H with context [conv_gfaces eps mmap ?s ?f ?st0] => destruct (conv_gfaces eps mmap s f st0) as [st|] eqn:E2; [|discriminate]; exists s, (if s then inf else []), f, st end.
  destruct (all_some _ morphs); [|discriminate]. destruct (all_some node_of ids); [|discriminate]. injection H as <-.
  cbn [paAttrs gaPos gaUV paUseUV paPrims paPartial]. split; [exact K|]. split; [exact E2|].
  split; [destruct (csVerts st); reflexivity|]. split; [destruct (csVerts st), (csUseUV st); reflexivity|]. auto.
Qed.

Lemma no_uv (o : object T) bones node_of morphs mmap p : object_parts scale centi eps unlit o bones node_of morphs mmap = Some p ->
  paUseUV p = false -> gaUV (paAttrs p) = None.
Proof.
  unfold object_parts. intros H. destruct (fixh_normals o); [|discriminate]. destruct (triangulate_object _); [|discriminate].
  destruct (get_weights _ _ _) as [[ids inf]|]; [|discriminate]. destruct (conv_gfaces _ _ _ _ _) as [st|]; [|discriminate].
  destruct (all_some _ _) as [tg|]; [|discriminate]. destruct (all_some _ _) as [js|]; [|discriminate]. injection H as <-. cbn [paUseUV paAttrs gaUV].
  intros ->. rewrite andb_false_r. reflexivity.
Qed.

(** Without vertices nothing can be converted. *)
Lemma no_vertices mmap sk f (st : cstate T) : csNormals st = [] -> csMap st = [] -> length (fVerts f) = 3%nat -> mmap (fMaterial f) <> None ->
  conv_face eps mmap sk f st = None.
Proof.
  intros E1 E2 L M. unfold conv_face. rewrite L. cbn [Nat.ltb Nat.leb]. destruct (mmap (fMaterial f)); [|congruence].
  assert (Z0 : forall A (i : Z), @zidx A [] i = None). { intros A i. unfold zidx. destruct (i <? 0)%Z; [reflexivity|]. destruct (Z.to_nat i); reflexivity. }
  destruct (fVerts f) as [|x l]; [discriminate|]. cbn [corners]. destruct (fUVs f) as [|u us] eqn:EU.
  - unfold plain_corner. rewrite E1, Z0. destruct (nth_error (fNormals f) 0) as [[n|]|]; reflexivity.
  - unfold uv_corner. rewrite EU. cbn [set_use_uv csMap]. rewrite E2. destruct (nth_error (fNormals f) 0) as [n|]; [|reflexivity].
    cbn [nth_error vm_get filter map]. unfold assign. cbn [set_use_uv csNormals csUV]. rewrite E1, Z0. destruct (zidx _ _); reflexivity.
Qed.
End Parts.

(** Vertices are only added. *)
Section Grow.
Context {T : Type} {N : Num T}.
Variable eps : T.
Lemma grow_assign (st st' : cstate T) x id u n : assign x id u n st = Some st' -> csVerts st' = csVerts st.
Proof. unfold assign. destruct (zidx _ _); [|discriminate]. destruct (zidx _ _); [|discriminate]. destruct n; [|discriminate]. intros H. injection H as <-. reflexivity. Qed.
Lemma grow_new (st st' : cstate T) sk x : new_vertex sk x st = Some st' -> (length (csVerts st) <= length (csVerts st'))%nat.
Proof.
  unfold new_vertex. destruct (zidx _ _); [|discriminate]. destruct (if sk then _ else _); [|discriminate]. intros H. injection H as <-. cbn [csVerts]. rewrite app_length. lia.
Qed.
Lemma grow_uv (st : cstate T) sk f i x id st' : uv_corner eps sk f i x st = Some (id, st') -> (length (csVerts st) <= length (csVerts st'))%nat.
Proof.
  unfold uv_corner. destruct (nth_error _ _); [|discriminate]. destruct (nth_error _ _); [|discriminate]. destruct (vm_get _ _) as [|a l].
  - destruct (assign _ _ _ _ _) as [s|] eqn:E; [|discriminate]. intros H. injection H as _ <-. rewrite (grow_assign _ _ _ _ _ _ E). lia.
  - destruct (find_uv _ _ _ _ _) as [[w|]|]; [|  |discriminate].
    + intros H. injection H as _ <-. lia.
    + destruct (new_vertex _ _ _) as [s1|] eqn:E1; [|discriminate]. destruct (assign _ _ _ _ _) as [s|] eqn:E; [|discriminate].
      intros H. injection H as _ <-. rewrite (grow_assign _ _ _ _ _ _ E). exact (grow_new _ _ _ _ E1).
Qed.
Lemma grow_plain (st : cstate T) f i x id st' : plain_corner f i x st = Some (id, st') -> (length (csVerts st) <= length (csVerts st'))%nat.
Proof. unfold plain_corner. destruct (nth_error _ _) as [[n|]|]; [|discriminate|discriminate]. destruct (zidx _ _); [|discriminate]. intros H. injection H as _ <-. cbn [csVerts]. lia. Qed.
Lemma grow_corners act : (forall i x (st : cstate T) id st', act i x st = Some (id, st') -> (length (csVerts st) <= length (csVerts st'))%nat) ->
  forall l i st ids st', corners act i l st = Some (ids, st') -> (length (csVerts st) <= length (csVerts st'))%nat.
Proof.
  intros A. induction l as [|x l IH]; intros i st ids st' H; cbn [corners] in H; [injection H as _ <-; lia|].
  destruct (act i x st) as [[id s1]|] eqn:E; [|discriminate]. destruct (corners act (S i) l s1) as [[r s2]|] eqn:E2; [|discriminate]. injection H as _ <-.
  specialize (A _ _ _ _ _ E). specialize (IH _ _ _ _ E2). lia.
Qed.
Lemma conv_keep_verts mmap sk fs : forall (st st' : cstate T), conv_gfaces eps mmap sk fs st = Some st' -> (length (csVerts st) <= length (csVerts st'))%nat.
Proof.
  induction fs as [|f r IH]; intros st st' H; cbn [conv_gfaces] in H; [injection H as <-; lia|].
  destruct (conv_face eps mmap sk f st) as [s1|] eqn:E; [|discriminate]. specialize (IH _ _ H).
  cut (length (csVerts st) <= length (csVerts s1))%nat; [lia|]. unfold conv_face in E. destruct (_ <? 3)%nat; [injection E as <-; lia|].
  destruct (mmap _); [|injection E as <-; lia].
  destruct (match fUVs f with [] => _ | _ => _ end) as [[ids s2]|] eqn:E2; [|discriminate].
  assert (length (csVerts st) <= length (csVerts s2))%nat as L.
  { destruct (fUVs f); [eapply grow_corners; [|exact E2]; intros; eapply grow_plain; eassumption|].
    apply grow_corners in E2; [exact E2|]. intros; eapply grow_uv; eassumption. }
  destruct ids as [|a [|b [|c ids]]]; try discriminate. injection E as <-. exact L.
Qed.
End Grow.

Lemma forall2_nth_r {A B} (P : A -> B -> Prop) l m : Forall2 P l m -> forall i b, nth_error m i = Some b -> exists a, nth_error l i = Some a /\ P a b.
Proof. induction 1 as [|x y l m H F IH]; intros [|i] b E; try discriminate; cbn in E |- *; [injection E as <-; eauto|apply IH; exact E]. Qed.
Lemma forall2_nth_iff {A B} (P : A -> B -> Prop) l : forall m, (length l = length m /\ forall i a b, nth_error l i = Some a -> nth_error m i = Some b -> P a b) -> Forall2 P l m.
Proof.
  induction l as [|x l IH]; intros [|y m] (L & H); try discriminate; constructor; [exact (H 0%nat _ _ eq_refl eq_refl)|].
  apply IH. split; [injection L as L; exact L|]. intros i a b Ha Hb. exact (H (S i) a b Ha Hb).
Qed.

Section Copies.
Variables (scale centi eps : R) (unlit : bool) (acc0 : list (vec3 R)) (acc0uv : list (vec2 R)) (mmap : Z -> option Z).

Lemma forall2_right {A B} (P : A -> B -> Prop) (Q : B -> Prop) l l' : (forall x y, P x y -> Q y) -> Forall2 P l l' -> Forall Q l'.
Proof. intros H. induction 1; constructor; eauto. Qed.
Lemma forall2_left {A B} (P : A -> B -> Prop) (Q : A -> Prop) l l' : (forall x y, P x y -> Q x) -> Forall2 P l l' -> Forall Q l.
Proof. intros H. induction 1; constructor; eauto. Qed.

Definition mat_pairs (a b : list (face R)) (x y : Z) : Prop :=
  exists i f g, nth_error a i = Some f /\ nth_error b i = Some g /\ mmap (fMaterial f) = Some x /\ mmap (fMaterial g) = Some y.

(** The parts of two copies. *)
Lemma copies_parts (a b : object R) ta tb ba bb na nb ma mb pa pb : copies mmap a b ta tb ->
  object_parts scale centi eps unlit a ba na ma mmap = Some pa -> object_parts scale centi eps unlit b bb nb mb mmap = Some pb ->
  paPartial pb = false /\ paUseUV pb = paUseUV pa /\ gaUV (paAttrs pb) = gaUV (paAttrs pa) /\ map snd (paPrims pb) = map snd (paPrims pa) /\
  exists pts, (pts = [] -> paPrims pb = []) /\
    gaPos (paAttrs pa) = (match pts with [] => None | _ => Some (map (fun p => v3scaled scale (mat_apply ta p)) pts) end) /\
    gaPos (paAttrs pb) = (match pts with [] => None | _ => Some (map (fun p => v3scaled scale (mat_apply tb p)) pts) end) /\
    (paUseUV pa = true -> pts <> [] -> gaUV (paAttrs pa) <> None) /\ (pts = [] -> gaUV (paAttrs pa) = None).
Proof.
  intros ((pts & Va & Vb) & F & M) Ea Eb.
  assert (La : Forall (fun f => length (fVerts f) = 3%nat) (oFaces a)). { eapply forall2_left; [|exact F]. cbn. intros x y (H1 & H2 & _). rewrite <- H2. exact H1. }
  assert (Lb : Forall (fun f => length (fVerts f) = 3%nat) (oFaces b)). { eapply forall2_right; [|exact F]. cbn. intros x y (H1 & _). exact H1. }
  destruct (parts_inv _ _ _ _ _ _ _ _ _ _ Ea La) as (sa & ska & fa & sta & Ka & Ca & Pa & Ua & Wa & Qa & Ra).
  destruct (parts_inv _ _ _ _ _ _ _ _ _ _ Eb Lb) as (sb & skb & fb & stb & Kb & Cb & Pb & Ub & Wb & Qb & Rb).
  assert (FM : forall i f g, nth_error fa i = Some f -> nth_error fb i = Some g -> exists f' g', nth_error (oFaces a) i = Some f' /\ nth_error (oFaces b) i = Some g' /\ fMaterial f = fMaterial f' /\ fMaterial g = fMaterial g').
  { intros i f g Hf Hg. destruct (forall2_nth_r _ _ _ Ka _ _ Hf) as (f' & Hf' & _ & _ & E). destruct (forall2_nth_r _ _ _ Kb _ _ Hg) as (g' & Hg' & _ & _ & E').
    exists f', g'. auto. }
  set (P := mat_pairs fa fb).
  assert (bij : forall x y x' y', P x y -> P x' y' -> (x = x' <-> y = y')).
  { intros x y x' y' (i & f & g & H1 & H2 & H3 & H4) (j & f' & g' & H1' & H2' & H3' & H4').
    destruct (FM _ _ _ H1 H2) as (q & r & I1 & I2 & I3 & I4). destruct (FM _ _ _ H1' H2') as (q' & r' & J1 & J2 & J3 & J4).
    rewrite I3 in H3. rewrite I4 in H4. rewrite J3 in H3'. rewrite J4 in H4'.
    pose proof (M _ _ _ _ _ _ I1 I2 J1 J2) as W. rewrite H3, H3', H4, H4' in W. split; intros E; [apply (f_equal Some) in E; apply W in E|apply (f_equal Some) in E; apply W in E]; congruence. }
  assert (FS : Forall2 (same_face mmap P) fa fb).
  { apply forall2_nth_iff. split.
    - rewrite <- (forall2_len _ _ _ Ka), <- (forall2_len _ _ _ Kb). exact (forall2_len _ _ _ F).
    - intros i f g Hf Hg. destruct (forall2_nth_r _ _ _ Ka _ _ Hf) as (f' & Hf' & K1 & K2 & K3). destruct (forall2_nth_r _ _ _ Kb _ _ Hg) as (g' & Hg' & K1' & K2' & K3').
      destruct (forall2_nth _ _ _ F _ _ Hf') as (g2 & Hg2 & H1 & H2 & H3 & H4 & H5). rewrite Hg' in Hg2. injection Hg2 as <-.
      split; [congruence|]. split; [congruence|]. rewrite <- K3 in H4. rewrite <- K3' in H5.
      destruct (mmap (fMaterial f)) as [x|] eqn:Ex; [|congruence]. destruct (mmap (fMaterial g)) as [y|] eqn:Ey; [|congruence].
      exists x, y. repeat split. exists i, f, g. auto. }
  assert (LV : length (oVerts a) = length (oVerts b)) by (rewrite Va, Vb, !map_length; reflexivity).
  pose proof (same_conv_faces eps (fun p => v3scaled scale (mat_apply ta p)) (fun p => v3scaled scale (mat_apply tb p)) sa sb mmap P bij fa fb FS (start (map (v3scaled scale) (oVerts a)) ska) (start (map (v3scaled scale) (oVerts b)) skb) sta stb) as SS.
  destruct SS as ((xs & X1 & X2) & X3 & X4 & X5 & X6 & X7); [|exact Ca|exact Cb|].
  { split; [exists pts; cbn [start csVerts]; rewrite Va, Vb, !map_map; auto|]. unfold start. cbn [csVerts csSrc csUV csMap csUseUV csPrims]. rewrite !map_length, LV.
    repeat (split; [reflexivity|]). constructor. }
  assert (NP : paPartial pb = false).
  { rewrite Rb. unfold is_partial. apply not_true_iff_false. intros E. apply existsb_exists in E as (g & Hg & E). apply In_nth_error in Hg as (i & Hg).
    destruct (forall2_nth_r _ _ _ FS _ _ Hg) as (f & _ & _ & _ & x & y & _ & Ey & _). rewrite Ey, andb_false_r in E. discriminate. }
  split; [exact NP|]. split; [rewrite Wa, Wb; symmetry; exact X6|].
  split; [rewrite Ua, Ub, <- X6, <- X4; destruct (csUseUV sta); [|reflexivity]; rewrite X1, X2; destruct xs; reflexivity|].
  split. { rewrite Qa, Qb. clear - X7. unfold same_prims in X7. induction X7 as [|p q l l' (E & _) F IH]; [reflexivity|]. cbn [map]. rewrite E, IH. reflexivity. }
  exists xs. split.
  { intros ->. rewrite Qb. cbn in X2. destruct fb as [|f r]; [cbn [conv_gfaces] in Cb; injection Cb as <-; reflexivity|].
    assert (oVerts b = []) as E0.
    { pose proof (conv_keep_verts eps mmap sb (f :: r) _ _ Cb) as G. cbn [start csVerts] in G. destruct (oVerts b) as [|v l]; [reflexivity|]. rewrite X2 in G. cbn in G. lia. }
    exfalso. cbn [conv_gfaces] in Cb. inversion FS as [|f0 ? ? ? (_ & _ & x & y & _ & Ey & _) FS' Eq0]; subst.
    rewrite no_vertices in Cb; [discriminate|rewrite E0; reflexivity|reflexivity| |congruence].
    inversion Kb as [|g ? ? ? (K1 & _) Kb' Eq0]; subst. inversion Lb; subst; [congruence|]. congruence. }
  split; [rewrite Pa, X1; destruct xs; reflexivity|]. split; [rewrite Pb, X2; destruct xs; reflexivity|].
  split.
  - intros U NE. rewrite Ua, <- Wa, U, X1. destruct xs; [congruence|]. discriminate.
  - intros ->. rewrite Ua, X1. destruct (csUseUV sta); reflexivity.
Qed.
End Copies.
