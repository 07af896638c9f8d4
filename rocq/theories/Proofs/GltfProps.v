(** Consequences of the export theorems, about the glTF document alone. *)
From Coq Require Import String List ZArith Bool Lia Permutation.
From Verif.Model Require Import Num Vec Matrix Mqo MqoDoc Mmd2Mqo Normals Mqo2Mmd Gltf Mqo2Gltf.
From Verif Require Import Spec.MqoSpec Spec.NormalsSpec Spec.Mqo2MmdSpec Spec.GltfSpec.
From Verif Require Import Proofs.Mqo2MmdProofs Proofs.Mqo2MmdTop Proofs.Mmd2MqoProofs Proofs.MqoObjProofs Proofs.MqoDocProofs Proofs.Mmd2MqoFaces
  Proofs.NormalsProofs Proofs.GltfGraph Proofs.GltfMesh Proofs.GltfWeights Proofs.GltfTop Proofs.GltfDoc.
Import ListNotations.
Local Open Scope Z_scope.
Local Open Scope list_scope.

Lemma forall2_in_r {A B} (P : A -> B -> Prop) l l' y : Forall2 P l l' -> In y l' -> exists x, In x l /\ P x y.
Proof. induction 1 as [|a b l l' H _ IH]; [intros []|]. intros [<-|Hi]; [exists a; split; [left; reflexivity|exact H]|]. destruct (IH Hi) as (x & Hx & Px). exists x. split; [right; exact Hx|exact Px]. Qed.

Section Main.
Context {T : Type} {N : Num T}.
Variables (scale centi eps : T) (ign unlit : bool) (opaque99 rough : T) (tex_alpha : material T -> bool).
Variables (d : document T) (bones : list (bone T)) (sets : list target_list) (g : gdoc T).
Hypothesis E : to_gltf scale centi eps ign unlit opaque99 rough tex_alpha d bones sets = Some g.
Hypothesis HB : NoDup (map bID bones).
Hypothesis W : Forall well_indexed (dObjects d).
Notation os := (exported_objects ign sets (fix_ids 0 (dObjects d))).
Hypothesis HF : Forall (fun o => Z.of_nat (length (lists_of o bones)) <= 65536) os.

(** An index of a primitive draws a corner of a triangle of the object. *)
Lemma index_corner (o : object T) ws morphs nrm mm fs (p : prim T) is_ id : exports_faces scale eps o ws morphs nrm mm fs p -> gpIndices p = Some is_ -> In id is_ ->
  exists f i, In f fs /\ exports_corner scale eps o ws morphs nrm p f i id.
Proof.
  intros (k & tris & _ & H & F) Hi Hin. rewrite H in Hi. injection Hi as <-. apply in_concat in Hin as (t & Ht & Hid).
  destruct (forall2_in_r _ _ _ _ F Ht) as (f & Hf & a & b & c & -> & A & B & C). apply filter_In in Hf as [Hf _]. exists f.
  destruct Hid as [<-|[<-|[<-|[]]]]; eexists; (split; [exact Hf|eassumption]).
Qed.

(** Joint numbers are valid for the skin of the same node. *)
Theorem joints_valid : forall i o n mi mesh p sk is_ id, nth_error os i = Some o -> nth_error (gdNodes g) i = Some n ->
  gnMesh n = Some mi -> nth_error (gdMeshes g) mi = Some mesh -> In p (gmPrims mesh) -> gpSkin p = Some sk -> gpIndices p = Some is_ -> In id is_ ->
  exists s si skin, zidx sk id = Some s /\ gnSkin n = Some si /\ nth_error (gdSkins g) si = Some skin /\ length s = 4%nat /\
    Forall (fun e => 0 <= fst e < Z.of_nat (length (gsJoints skin))) s.
Proof.
  intros i o n mi mesh p sk is_ id Ho Hn Hmi Hmesh Hp Hsk His Hid.
  destruct (exports_all scale centi eps ign unlit opaque99 rough tex_alpha d bones sets g E HB W HF) as (mm & _ & X).
  destruct (X i o Ho) as (n' & Hn' & _ & _ & V0 & V1). rewrite Hn in Hn'. injection Hn' as <-.
  destruct (oVisible o) eqn:Ev; [|destruct (V0 eq_refl); congruence]. destruct (V1 eq_refl) as (Hm & Hs). clear V0 V1 X.
  destruct Hm as (mesh' & M & [[_ Q]|[_ (mi' & Q1 & Q2)]]); [congruence|]. rewrite Hmi in Q1. injection Q1 as <-. rewrite Hmesh in Q2. injection Q2 as <-.
  destruct M as (tris & ws & morphs & _ & _ & Lw & SL & _ & _ & _ & _ & FP & _). rewrite Forall_forall in FP. destruct (FP p Hp) as (EF & SK & _).
  destruct Hs as [[Q _]|(Ne & si & skin & S1 & S2 & SKN)]; [apply SK in Q; congruence|].
  destruct (index_corner _ _ _ _ _ _ _ _ _ EF His Hid) as (f & k & _ & x & _ & (pos & q & _ & _ & _ & _ & SW) & _).
  destruct (SW sk Hsk) as (s & Z1 & Z2). exists s, si, skin. split; [exact Z2|]. split; [exact S1|]. split; [exact S2|].
  destruct (SL x s Z1) as (L4 & FJ & _). split; [exact L4|].
  assert (LJ : length (gsJoints skin) = length (lists_of o bones)).
  { unfold exports_skin in SKN. apply forall2_len in SKN. rewrite <- SKN. unfold list_owners, lists_of. clear. induction bones as [|b r IH]; [reflexivity|].
    cbn [flat_map]. rewrite !app_length, !map_length, IH. reflexivity. }
  rewrite LJ. pose proof (influences_bound centi o bones x) as IB. rewrite Forall_forall in IB. eapply Forall_impl; [|exact FJ]. cbn. intros e [->|He].
  - destruct (lists_of o bones); [congruence|]. cbn. lia.
  - apply in_map_iff in He as (e' & <- & He). apply IB. exact He.
Qed.

(** Every primitive has a material. *)
Theorem material_valid : forall mesh p, In mesh (gdMeshes g) -> In p (gmPrims mesh) -> exists k gm, gpMaterial p = Some k /\ zidx (gdMats g) k = Some gm.
Proof.
  intros mesh p Hm Hp. destruct (meshes_from scale centi eps ign unlit opaque99 rough tex_alpha d bones sets g E W HF) as (mm & (R1 & _) & F).
  rewrite Forall_forall in F. destruct (F mesh Hm) as (o & _ & _ & tris & ws & morphs & _ & _ & _ & _ & _ & _ & _ & K & FP & _).
  rewrite Forall_forall in FP. destruct (FP p Hp) as ((k & ts & Hk & _) & _).
  assert (In (Some k) (map gpMaterial (gmPrims mesh))) as Hin by (rewrite <- Hk; apply in_map; exact Hp).
  apply K in Hin as (f & _ & Hmm). destruct (R1 _ _ Hmm) as (m & gm & _ & Hg & _). eauto.
Qed.

(** Every triangle of a visible object whose material is exported is drawn, with that material. *)
Theorem faces_drawn : exists mm, renumbers os (dMaterials d) (gdMats g) mm /\
  forall i o, nth_error os i = Some o -> oVisible o = true -> exists tris, triangles_of o tris /\
   forall f k, In f tris -> mm (fMaterial f) = Some k ->
   exists n mi mesh p is_ a b c, nth_error (gdNodes g) i = Some n /\ gnMesh n = Some mi /\ nth_error (gdMeshes g) mi = Some mesh /\ In p (gmPrims mesh) /\
     gpMaterial p = Some k /\ gpIndices p = Some is_ /\ (exists u v, is_ = u ++ [c; b; a] ++ v) /\
     exists ws morphs, exports_corner scale eps o ws morphs (given_normal tris) p f 0 a /\
       exports_corner scale eps o ws morphs (given_normal tris) p f 1 b /\ exports_corner scale eps o ws morphs (given_normal tris) p f 2 c.
Proof.
  destruct (exports_all scale centi eps ign unlit opaque99 rough tex_alpha d bones sets g E HB W HF) as (mm & R & X). exists mm. split; [exact R|].
  intros i o Ho Hv. destruct (X i o Ho) as (n & Hn & _ & _ & _ & V1). destruct (V1 Hv) as ((mesh & M & Hm) & _). clear V1 X.
  destruct M as (tris & ws & morphs & TR & _ & _ & _ & _ & _ & _ & K & FP & _). exists tris. split; [exact TR|]. intros f k Hf Hk.
  assert (HK : In (Some k) (map gpMaterial (gmPrims mesh))) by (apply K; eauto). apply in_map_iff in HK as (p & Hpk & Hp).
  destruct Hm as [[Q _]|[_ (mi & Q1 & Q2)]]; [rewrite Q in Hp; destruct Hp|].
  rewrite Forall_forall in FP. destruct (FP p Hp) as ((k' & ts & Hk' & Hi & F) & _). rewrite Hpk in Hk'. injection Hk' as <-.
  assert (Hff : In f (filter (fun f => match mm (fMaterial f) with Some k' => k' =? k | None => false end) tris)).
  { apply filter_In. split; [exact Hf|]. rewrite Hk. apply Z.eqb_refl. }
  apply in_split in Hff as (l1 & l2 & El). rewrite El in F. apply Forall2_app_inv_l in F as (t1 & t2 & _ & F2 & Et). inversion F2 as [|? t ? t2' (a & b & c & -> & A & B & C) _]; subst.
  exists n, mi, mesh, p, (concat (t1 ++ [c; b; a] :: t2')), a, b, c. repeat (split; [assumption|]). split; [exists (concat t1), (concat t2'); rewrite concat_app; reflexivity|].
  exists ws, morphs. auto.
Qed.
End Main.
