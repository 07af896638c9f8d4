(** Sound FBX documents are converted. *)
From Coq Require Import String Ascii List ZArith Bool Lia.
From Verif.Model Require Import Num Vec Matrix Mqo MqoDoc Mmd2Mqo FbxDoc Fbx2Mqo.
From Verif.Spec Require Import GltfSpec FbxDocSpec FbxSceneSpec FbxMeshSpec.
From Verif.Proofs Require Mmd2MqoFaces.
From Verif.Proofs Require Import FbxDocProofs FbxWalk FbxTree FbxObjects FbxFaces.
Import ListNotations.
Local Open Scope string_scope.
Local Open Scope list_scope.
Local Open Scope Z_scope.

Lemma fmap_total {A B} (f : A -> fres B) l : (forall x, In x l -> exists y, f x = FOk y) -> exists ys, fmap f l = FOk ys.
Proof.
  induction l as [|x l IH]; intros H; [now exists []|]. destruct (H x (or_introl eq_refl)) as (y & E). destruct IH as (ys & E'); [intros; apply H; now right|]. exists (y :: ys). cbn. rewrite E. cbn. now rewrite E'.
Qed.
Lemma ffold_total {A B} (P : B -> Prop) (f : B -> A -> fres B) l : (forall b x, P b -> In x l -> exists b', f b x = FOk b' /\ P b') -> forall b, P b -> exists b', ffold f l b = FOk b' /\ P b'.
Proof.
  induction l as [|x l IH]; intros H b Pb; [now exists b|]. destruct (H b x Pb (or_introl eq_refl)) as (b1 & E & P1). destruct (IH (fun b y Q I => H b y Q (or_intror I)) b1 P1) as (b2 & E2 & P2). exists b2. cbn. rewrite E. cbn. now split.
Qed.

Section T.
Context {T : Type} {N : Num T}.
Variables tenth facet : T.
Variable d : fdoc T.
Variable depth : nat -> nat.
Variable n : nat.
Hypothesis SD : sound_doc d depth n.
Variable full : nat.
Hypothesis FULL : (n <= full)%nat.
Variable op : foption T.
Variable base : nat.

Lemma parent_depth o p : parent d o = Some p -> depth o = S (depth p) /\ is_model d p = true.
Proof.
  unfold parent. fold (links d). intros H. assert (S := parent_of_spec o (links d)). rewrite H in S. destruct S as (a & b & L & _). assert (I : In (o, p) (links d)) by (rewrite L; apply in_or_app; right; now left).
  split; [exact (td_depth _ _ (sd_tree _ _ _ SD) _ _ I)|]. now apply links_parent in I.
Qed.

(** *** Faces *)
Lemma face_total g nt mats i k f : sound_geom g -> (k + length f <= length (gIndex g))%nat -> exists x, convert_face g nt mats (length (polygons g)) i k f = FOk x.
Proof.
  intros (GM & GU) K. unfold convert_face.
  assert (M : exists m, face_material mats (mat_index g (length (polygons g)) i) = FOk m).
  { unfold face_material. destruct (Z.ltb_spec (mat_index g (length (polygons g)) i) (Z.of_nat (length mats))) as [L|]; [|eauto]. destruct (zidx_in mats (mat_index g (length (polygons g)) i)) as (m & ->); [|cbn; eauto]. split; [|exact L].
    assert (P : forall j, 0 <= nth j (lIndexes (gMats g)) 0).
    { intro j. destruct (Nat.lt_ge_cases j (length (lIndexes (gMats g)))) as [J|J]; [|rewrite nth_overflow by exact J; lia]. rewrite Forall_forall in GM. apply GM, nth_In, J. }
    unfold mat_index. destruct (_ && _); [apply P|]. destruct (_ && _); [apply P|lia]. }
  destruct M as (m & ->). cbn [fbind].
  assert (U : exists u, face_uvs (uv_of g) k (length f) = FOk u).
  { unfold uv_of. destruct (String.eqb_spec (lMapping (gUVs g)) "ByPolygonVertex") as [EM|]; [|cbn; eauto]. destruct (String.eqb_spec (lReference (gUVs g)) "IndexToDirect") as [ER|].
    - specialize (GU EM ER). destruct (Nat.ltb_spec (length (lIndexes (gUVs g))) (length (gIndex g))); [cbn; eauto|]. cbn [face_uvs]. apply fmap_total. intros c C. apply in_seq in C.
      destruct (nth_error (lIndexes (gUVs g)) c) as [j|] eqn:J; [|apply nth_error_None in J; lia]. cbn [fopt fbind]. rewrite Forall_forall in GU. destruct (zidx_in (lValues (gUVs g)) j (GU _ (nth_error_In _ _ J))) as (v & ->). cbn. eauto.
    - destruct (Nat.ltb_spec (length (lValues (gUVs g))) (length (gIndex g))); [cbn; eauto|]. cbn [face_uvs]. apply fmap_total. intros c C. apply in_seq in C.
      destruct (nth_error (lValues (gUVs g)) c) as [j|] eqn:J; [|apply nth_error_None in J; lia]. cbn. eauto. }
  destruct U as (u & ->). cbn. eauto.
Qed.
Lemma faces_total g nt mats : sound_geom g -> forall fs i k, (k + length (concat fs) <= length (gIndex g))%nat -> exists xs, convert_faces g nt mats (length (polygons g)) i k fs = FOk xs.
Proof.
  intros G. induction fs as [|f fs IH]; intros i k K; cbn [convert_faces concat] in *; [eauto|]. rewrite app_length in K. destruct (face_total g nt mats i k f G) as (x & ->); [lia|]. cbn [fbind]. destruct (IH (S i) (k + length f)%nat) as (xs & ->); [lia|]. cbn. eauto.
Qed.

(** *** Shapes *)
Lemma move_total g tr : forall idx offs vs, Forall (fun j => 0 <= j) idx -> length vs = length (gVerts g) -> exists r, move_verts g tr idx offs vs = FOk r.
Proof.
  induction idx as [|i idx IH]; intros offs vs F L; [cbn; eauto|]. inversion F; subst. cbn [move_verts]. destruct offs as [|o offs]; [eauto|]. destruct (Z.ltb_spec i (Z.of_nat (length vs))) as [B|B]; [|now apply IH].
  destruct (Z.ltb_spec i 0); [lia|]. destruct (zidx_in (gVerts g) i) as (v & ->); [lia|]. cbn [fopt fbind]. apply IH; [assumption|]. now rewrite Mmd2MqoFaces.list_set_length.
Qed.
Lemma shape_total s obj g tr : sound_shape s -> length (oVerts obj) = length (gVerts g) -> exists y, convert_shape s obj g tr = FOk y.
Proof.
  intros S L. unfold convert_shape. destruct (Nat.eqb _ _); [|eauto]. destruct (move_total g tr (shIndexes s) (shVerts s) (oVerts (set_name (clone_obj obj) (shown_name (shName s)))) S L) as (r & ->). cbn. eauto.
Qed.

(** *** Bones *)
Lemma world_total : forall f o, (depth o < f)%nat -> exists m, world_matrix d f o = FOk m.
Proof.
  unfold world_matrix. induction f as [|f IH]; intros o L; [lia|]. cbn [world]. destruct (parent d o) as [p|] eqn:P; [|eauto]. destruct (parent_depth _ _ P) as [Dp _]. destruct (IH p) as (m & E); [lia|]. destruct (world mat_mul (local d) (parent d) f p); [|discriminate]. eauto.
Qed.
Lemma path_total : forall f known o, (depth o < f)%nat -> is_model d o = true -> exists p, bone_path d f known (Some o) = FOk p /\ Forall (fun x => is_model d x = true) p /\
  (o <> fdScene d -> ~ In o known -> In o p).
Proof.
  induction f as [|f IH]; intros known o L M; [lia|]. cbn [bone_path]. destruct (Nat.eqb_spec o (fdScene d)); [exists []; repeat split; [constructor|congruence]|].
  destruct (existsb (Nat.eqb o) known) eqn:E.
  - exists []. repeat split; [constructor|]. intros _ NI. exfalso. apply NI. apply existsb_exists in E. destruct E as (x & I & X). apply Nat.eqb_eq in X. now subst.
  - destruct (parent d o) as [q|] eqn:P.
    + destruct (parent_depth _ _ P) as [Dp Mq]. destruct (IH (o :: known) q) as (p & Ep & Fp & _); [lia|exact Mq|]. exists (o :: p). rewrite Ep. cbn. repeat split; [now constructor|now left].
    + exists [o]. destruct f; cbn; repeat split; auto; now left.
Qed.
Definition bones_sound (s : list (bone T) * list (nat * Z)) : Prop := forall o, In o (map fst (snd s)) -> exists id, map_find (snd s) o = Some id /\ 1 <= id <= Z.of_nat (length (fst s)).
Lemma map_find_cons o id mp x : map_find ((o, id) :: mp) x = if Nat.eqb o x then Some id else map_find mp x.
Proof. unfold map_find. cbn [find fst]. now destruct (Nat.eqb o x). Qed.
Lemma add_total coord : forall l s, Forall (fun o => is_model d o = true) l -> exists s', ffold (add_bone d full coord) l s = FOk s' /\ (length (fst s) <= length (fst s'))%nat /\
  (forall o, In o l -> exists id, map_find (snd s') o = Some id /\ 1 <= id <= Z.of_nat (length (fst s'))) /\ (forall o, ~ In o l -> map_find (snd s') o = map_find (snd s) o) /\
  (forall o, In o (map fst (snd s')) <-> In o l \/ In o (map fst (snd s))).
Proof.
  induction l as [|x l IH]; intros [bs mp] F; [exists (bs, mp); cbn; repeat split; auto; intuition|]. inversion F; subst. cbn [ffold]. unfold add_bone at 1.
  destruct (world_total full x) as (w & ->); [assert (B := sd_bound _ _ _ SD x H1); lia|]. cbn [fbind].
  match goal with |- context [ffold _ l ?s0] => destruct (IH s0 H2) as (s' & -> & L & A & B & C) end. exists s'. cbn [fst snd] in *. rewrite app_length in L. cbn [length] in L. split; [reflexivity|]. split; [lia|]. split; [|split].
  - intros o [<-|I]; [|now apply A]. destruct (in_dec Nat.eq_dec x l) as [I|NI]; [now apply A|]. rewrite (B x NI). rewrite map_find_cons, Nat.eqb_refl. eexists. split; [reflexivity|]. lia.
  - intros o NI. rewrite B by (intro I; apply NI; now right). rewrite map_find_cons. destruct (Nat.eqb_spec x o); [exfalso; apply NI; now left|reflexivity].
  - intros o. rewrite C. cbn [map fst In]. tauto.
Qed.
Lemma map_find_zeros l mp x : ~ In x l -> map_find (map (fun k => (k, 0)) l ++ mp) x = map_find mp x.
Proof. induction l as [|y l IH]; intros NI; [reflexivity|]. cbn [map app]. rewrite map_find_cons. destruct (Nat.eqb_spec y x); [exfalso; apply NI; now left|]. apply IH. intro I. apply NI. now right. Qed.
Lemma bone_total coord s j : bones_sound s -> exists s', bone_step d full coord s j = FOk s' /\ bones_sound s'.
Proof.
  intros BS. unfold bone_step. destruct (fdObjs d (fst j)) as [[]|] eqn:O; try (exists s; now split). destruct (find (is_model d) (refs d (fst j))) as [m|] eqn:F; [|exists s; now split].
  assert (M : is_model d m = true) by (now apply find_some in F).
  assert (NS : m <> fdScene d) by (intros ->; apply (sd_bind _ _ _ SD) in F; unfold is_def in F; rewrite O in F; discriminate).
  destruct (path_total full (map fst (snd s)) m) as (p & -> & Fp & Ip); [assert (B := sd_bound _ _ _ SD m M); lia|exact M|]. cbn [fbind].
  match goal with |- context [ffold _ (rev p) ?s0] => destruct (add_total coord (rev p) s0) as (s' & -> & L & A & B & C) end; [apply Forall_rev; exact Fp|]. cbn [fbind fst snd] in *.
  assert (ALL : bones_sound s').
  { intros o I. rewrite C, map_app, map_map, map_id, in_app_iff in I. destruct (in_dec Nat.eq_dec o (rev p)) as [Ir|NI]; [now apply A|]. rewrite (B o NI), map_find_zeros by exact NI. destruct I as [I|[I|I]]; try contradiction. destruct (BS o I) as (id & E & R). exists id. split; [exact E|lia]. }
  assert (MI : In m (map fst (snd s'))).
  { rewrite C, map_app, in_app_iff. destruct (in_dec Nat.eq_dec m (map fst (snd s))) as [I|NI]; [tauto|]. left. apply in_rev. rewrite rev_involutive. now apply Ip. }
  destruct (ALL m MI) as (id & E & R). rewrite E. destruct (zidx_in (fst s') (id - 1)) as (b & ->); [lia|]. cbn [fopt fbind]. eexists. split; [reflexivity|]. intros o I. cbn [fst snd] in *. rewrite Mmd2MqoFaces.list_set_length. now apply ALL.
Qed.
Lemma deformer_total coord st o obj : bones_sound (bones_of st) -> exists st', convert_deformer d full coord st o obj = FOk st' /\ bones_sound (bones_of st').
Proof. intros B. rewrite deformer_bones. destruct (bone_total coord _ (o, obj) B) as (s & -> & B'). cbn. eexists. split; [reflexivity|]. destruct s. exact B'. Qed.

(** *** Models *)
Lemma geometry_total coord st k g obj tr mats : sound_geom g -> Forall sound_shape (all_shapes d k g) -> bones_sound (bones_of st) ->
  exists r, convert_geometry d full coord op st k g obj tr mats = FOk r /\ bones_sound (bones_of (snd r)).
Proof.
  intros G S B. unfold convert_geometry. fold (polygons g). destruct (faces_total g (normal_transform tr) mats G (polygons g) 0 0) as (fs & ->); [apply (decode_length (gIndex g) [])|]. cbn [fbind].
  set (ob := set_faces (set_verts obj (map (mat_apply tr) (gVerts g))) fs). assert (LV : length (oVerts ob) = length (gVerts g)) by (cbn; apply map_length).
  unfold all_shapes in S. apply Forall_app in S. destruct S as [S1 S2].
  destruct (ffold_total (fun s : list (object T) * fstate T => bones_sound (bones_of (snd s))) (deformer_step d full coord op ob g tr) (deformers d k)) with (b := (@nil (object T), st)) as (s & -> & Bs); [|exact B|].
  - intros [sh s] o Bs I. unfold deformer_step. destruct (fdObjs d o) as [[]|] eqn:O; try (exists (sh, s); now split). destruct (String.eqb (dfKind f) "BlendShapeChannel") eqn:K.
    + destruct (opNoShapes op); [exists (sh, s); now split|]. destruct (fmap_total (fun x => convert_shape x ob g tr) (shapes_of d o)) as (ys & ->); [|eexists; split; [reflexivity|exact Bs]].
      intros x X. apply shape_total; [|exact LV]. rewrite Forall_forall in S1. apply S1. apply in_flat_map. exists o. split; [exact I|]. now rewrite O, K.
    + destruct (opNoBones op); [exists (sh, s); now split|]. destruct (deformer_total coord s o (oUID ob) Bs) as (s' & -> & B'). eexists. split; [reflexivity|exact B'].
  - cbn [fbind]. destruct s as [sh st']. destruct (opNoShapes op); [cbn; eexists; split; [reflexivity|exact Bs]|]. destruct (fmap_total (fun x => convert_shape x ob g tr) (gShapes g)) as (ys & ->); [|cbn; eexists; split; [reflexivity|exact Bs]].
    intros x X. apply shape_total; [|exact LV]. rewrite Forall_forall in S2. now apply S2.
Qed.
Lemma override_total over : forall arr seen m ids, Forall (fun j => 0 <= j) arr -> (m < length over)%nat -> exists r, override_loop over arr seen m ids = FOk r.
Proof.
  induction arr as [|a arr IH]; intros seen m ids F L; cbn [override_loop]; [eauto|]. inversion F; subst. destruct (_ || _); [now apply IH|]. destruct (Z.ltb_spec a 0); [lia|].
  destruct (nth_error over m) eqn:E; [|apply nth_error_None in E; lia]. cbn [fopt fbind]. destruct (Nat.leb_spec (length over) (S m)); [eauto|]. now apply IH.
Qed.
Lemma materials_total o dep : exists mats, model_materials d op base o dep = FOk mats.
Proof.
  unfold model_materials. destruct (_ && _); [|eauto]. destruct (opOverride op) as [[|x r]|]; eauto. unfold override. destruct (geometry d o) as [[k g]|] eqn:G; [|eauto]. destruct (_ && _); [|eauto].
  apply override_total; [|cbn; lia]. apply (sd_geom _ _ _ SD) in G. exact (proj1 (proj1 G)).
Qed.
Lemma one_total coord st o dep tr : bones_sound (bones_of st) -> exists st', convert_one facet d full coord op base st o dep tr = FOk st' /\ bones_sound (bones_of st').
Proof.
  intros B. unfold convert_one. destruct (materials_total o dep) as (mats & ->). cbn [fbind]. destruct (geometry d o) as [[k g]|] eqn:G; [|eexists; split; [reflexivity|exact B]].
  destruct (sd_geom _ _ _ SD _ _ _ G) as [G1 G2].
  match goal with |- context [convert_geometry d full coord op st k g ?ob tr mats] => destruct (geometry_total coord st k g ob tr mats G1 G2 B) as ([[ob' sh] st'] & -> & B') end. cbn [fbind]. eexists. split; [reflexivity|]. exact B'.
Qed.
Lemma child_depth o c : is_model d o = true -> In c (children d o) -> depth c = S (depth o) /\ is_model d c = true.
Proof. intros M I. split; [|exact (children_model d _ _ I)]. apply (td_depth _ _ (sd_tree _ _ _ SD)). now apply (children_links d depth (sd_tree _ _ _ SD)). Qed.
Lemma model_total coord : forall f st o dep above, is_model d o = true -> (n <= f + depth o)%nat -> bones_sound (bones_of st) -> exists st', convert_model facet d full f coord op base st o dep above = FOk st' /\ bones_sound (bones_of st').
Proof.
  induction f as [|f IH]; intros st o dep above M L B; [assert (X := sd_bound _ _ _ SD o M); lia|]. cbn [convert_model]. match goal with |- context [convert_one _ _ _ _ _ _ st o dep ?tr] => destruct (one_total coord st o dep tr B) as (s1 & -> & B1) end. cbn [fbind].
  apply ffold_total with (P := fun st => bones_sound (bones_of st)); [|exact B1]. intros s c Bs I. destruct (child_depth o c M I) as [Dc Mc]. destruct (_ || _); [|exists s; now split]. apply IH; [exact Mc|lia|exact Bs].
Qed.
Lemma any_total (f : nat -> fres bool) l : (forall c, In c l -> exists b, f c = FOk b) -> exists b, any_of f l = FOk b.
Proof. induction l as [|c l IH]; intros H; cbn [any_of]; [eauto|]. destruct (H c (or_introl eq_refl)) as ([] & ->); cbn; [eauto|]. apply IH. intros; apply H; now right. Qed.
Lemma has_total : forall f o, is_model d o = true -> (n <= f + depth o)%nat -> exists b, has_geometry d f o = FOk b.
Proof.
  induction f as [|f IH]; intros o M L; [assert (X := sd_bound _ _ _ SD o M); lia|]. cbn [has_geometry]. destruct (geometry d o); [eauto|]. apply any_total. intros c I. destruct (child_depth o c M I) as [Dc Mc]. apply IH; [exact Mc|lia].
Qed.
Lemma fbx_total objs : exists st mats, convert_fbx tenth facet d full op objs base = FOk (st, mats).
Proof.
  unfold convert_fbx. destruct (fdCoord d) as [coord|] eqn:CO; [|destruct (sd_coord _ _ _ SD CO)]. cbn [fopt fbind]. assert (B0 : bones_sound (bones_of (mkFS objs [] [] []))) by (intros o []). assert (MS := td_scene _ _ (sd_tree _ _ _ SD)).
  destruct (negb _).
  - destruct (find_child_model d (opTarget op)) as [m|] eqn:F; [|eauto]. apply find_some in F. destruct F as [F _]. destruct (child_depth _ m MS F) as [_ Mm].
    match goal with |- context [convert_model facet d full full coord op base ?s m ?dp ?ab] => destruct (model_total coord full s m dp ab Mm ltac:(lia) B0) as (st & -> & _) end. cbn. eauto.
  - match goal with |- context [ffold ?f ?l ?s0] => destruct (ffold_total (fun st => bones_sound (bones_of st)) f l) with (b := s0) as (st & -> & _) end; [|exact B0|cbn; eauto].
    intros s c Bs I. destruct (child_depth _ c MS I) as [_ Mc].
    assert (X : exists b, (if opWhole op then FOk true else if negb (String.eqb (kind d c) "LimbNode") then has_geometry d full c else FOk false) = FOk b).
    { destruct (opWhole op); [eauto|]. destruct (negb _); [|eauto]. apply has_total; [exact Mc|lia]. }
    destruct X as (b & ->). cbn [fbind]. destruct b; [|exists s; now split]. apply model_total; [exact Mc|lia|exact Bs].
Qed.
End T.
