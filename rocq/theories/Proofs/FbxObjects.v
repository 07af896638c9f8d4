(** The objects of a converted FBX document, one by one. *)
From Coq Require Import String Ascii List ZArith Bool Lia.
From Verif.Model Require Import Num Vec Matrix Mqo MqoDoc Mmd2Mqo FbxDoc Fbx2Mqo.
From Verif.Spec Require Import GltfSpec FbxDocSpec FbxSceneSpec.
From Verif.Model Require Import UnityProject.
From Verif.Proofs Require Import FbxDocProofs ProjectProofs FbxWalk FbxTree.
Import ListNotations.
Local Open Scope string_scope.
Local Open Scope list_scope.
Local Open Scope Z_scope.

Section O.
Context {T : Type} {N : Num T}.
Variables tenth facet : T.
Variable d : fdoc T.
Variable op : foption T.
Variable base : nat.
Notation label := (@label T).
Notation shows := (shows d op).

(** *** Objects and labels *)

Definition base_object (path : list nat) (tr : mat4 T) (x : object T) : Prop :=
  match geometry d (last path 0%nat) with
  | None => oVerts x = [] /\ oFaces x = []
  | Some (k, g) => oVerts x = map (mat_apply tr) (gVerts g) /\
      exists mats, model_materials d op base (last path 0%nat) (opDepth op + Z.of_nat (length path) - 1) = FOk mats /\
        convert_faces g (normal_transform tr) mats (length (polygons g)) 0 0 (polygons g) = FOk (oFaces x)
  end.
Definition target_object (path : list nat) (s : fshape T) (tr : mat4 T) (x : object T) : Prop :=
  exists k g b y, geometry d (last path 0%nat) = Some (k, g) /\ base_object path tr b /\ oVertexByUID b = [] /\ convert_shape s b g tr = FOk y /\ oVerts x = oVerts y /\ oFaces x = oFaces y.
Definition describes (top : nat -> mat4 T) (l : label) (x : object T) : Prop :=
  shows l x /\ oScale x = Some (mkV3 none none none) /\ oRotation x = Some (mkV3 nzero nzero nzero) /\ oTranslation x = Some (mkV3 nzero nzero nzero) /\
  match snd l with
  | None => base_object (fst l) (placed d top (fst l)) x
  | Some s => target_object (fst l) s (placed d top (fst l)) x
  end.
Lemma shape_head s b (g : fgeom T) tr y : convert_shape s b g tr = FOk y ->
  oName y = shown_name (shName s) /\ oScale y = oScale b /\ oRotation y = oRotation b /\ oTranslation y = oTranslation b.
Proof. unfold convert_shape. destruct (Nat.eqb _ _); intros H; [unbind H|]; injection H as <-; repeat split. Qed.
Lemma number_targets_length n depth (l : list (object T)) : length (number_targets n depth l) = length l.
Proof. revert n. induction l; intros n; [reflexivity|]. cbn. now rewrite IHl. Qed.
Lemma number_targets_uid n depth (l : list (object T)) : map (@oUID T) (number_targets n depth l) = map Z.of_nat (seq (S n) (length l)).
Proof. revert n. induction l as [|x l IH]; intros n; [reflexivity|]. cbn [number_targets map length seq]. rewrite IH. f_equal. cbn. lia. Qed.
Lemma block_ok n path tr os ms js : path <> [] -> block facet d op base n (last path 0%nat) (opDepth op + Z.of_nat (length path) - 1) tr os ms js ->
  map (@oUID T) os = map Z.of_nat (seq (S n) (length os)) /\
  forall top, placed d top path = tr -> Forall2 (describes top) (labels d op path) os.
Proof.
  intros NE (mats & M & B). unfold labels. unfold shapes_at. destruct (geometry d (last path 0%nat)) as [[k g]|] eqn:G.
  - destruct B as (fs & ts & F & S & -> & _). split.
    + cbn [map length seq]. rewrite number_targets_uid, number_targets_length. f_equal. cbn. lia.
    + intros top P. set (obj := set_faces (set_verts (head facet d n (last path 0%nat) (opDepth op + Z.of_nat (length path) - 1)) (map (mat_apply tr) (gVerts g))) fs) in *.
      assert (BO : base_object path tr obj) by (unfold base_object; rewrite G; split; [reflexivity|]; exists mats; split; [exact M|exact F]).
      constructor.
      * repeat split; try reflexivity; [cbn; lia|]. cbn [snd fst]. rewrite P. exact BO.
      * apply fmap_nth in S. revert S. generalize (if opNoShapes op then [] else all_shapes d k g). intros ss S. generalize (Datatypes.S n). induction S as [|s y ss ts H S IH]; intros m; cbn [map number_targets]; [constructor|].
        constructor; [|apply IH]. destruct (shape_head _ _ _ _ _ H) as (A1 & A2 & A3 & A4). repeat split; cbn [snd fst as_target oScale oRotation oTranslation oName]; try assumption.
        -- cbn. lia.
        -- rewrite P. exists k, g, obj, y. repeat split; try assumption.
  - destruct B as (-> & _). split; [cbn; f_equal; lia|]. intros top P. destruct (opNoShapes op); (constructor; [|constructor]; repeat split; try reflexivity; [cbn; lia|]; cbn [snd fst]; unfold base_object; rewrite G; now split).
Qed.
Lemma blocks_ok top n vs oss ms js : Forall (fun p => p <> []) vs -> blocks facet d op base top n vs oss ms js ->
  map (@oUID T) (concat oss) = map Z.of_nat (seq (S n) (length (concat oss))) /\ Forall2 (describes top) (flat_map (labels d op) vs) (concat oss).
Proof.
  intros NE B. induction B as [n|n path vs os oss ms mss js jss H B IH]; [split; [reflexivity|constructor]|]. inversion NE as [|? ? N1 N2]; subst. destruct (IH N2) as [A1 A2]. destruct (block_ok _ _ _ _ _ _ N1 H) as [B1 B2].
  cbn [concat flat_map]. split.
  - rewrite map_app, A1, B1, app_length, seq_app, map_app. reflexivity.
  - apply Forall2_app; [now apply B2|exact A2].
Qed.

(** *** Which models are visited *)

Lemma walks_paths : forall path os vs, walks d (opWhole op) path os vs -> Forall (fun p => exists o q, In o os /\ p = path ++ o :: q) vs.
Proof.
  apply (walks_mut T d (opWhole op) (fun path o vs _ => Forall (fun p => exists q, p = path ++ o :: q) vs) (fun path os vs _ => Forall (fun p => exists o q, In o os /\ p = path ++ o :: q) vs)).
  - intros path o vs _ IH. constructor; [now exists []|]. eapply Forall_impl; [|exact IH]. intros p (c & q & _ & ->). exists (c :: q). now rewrite <- app_assoc.
  - constructor.
  - intros path o os vs ws _ IH1 _ IH2. apply Forall_app. split; (eapply Forall_impl; [|eassumption]); [intros p (q & ->); exists o, q; split; [now left|reflexivity]|intros p (c & q & I & ->); exists c, q; split; [now right|reflexivity]].
Qed.
Lemma walks_nonempty path os vs : walks d (opWhole op) path os vs -> Forall (fun p => p <> []) vs.
Proof. intros W. eapply Forall_impl; [|exact (walks_paths _ _ _ W)]. intros p (o & q & _ & ->) E. now destruct path. Qed.

Lemma has_geometry_ok fuel : forall o b, has_geometry d fuel o = FOk b -> (b = true <-> has_mesh d o).
Proof.
  induction fuel as [|fuel IH]; intros o b H; [discriminate|]. cbn [has_geometry] in H. destruct (geometry d o) as [p|] eqn:G.
  - injection H as <-. split; [intros _; apply hm_here; congruence|reflexivity].
  - assert (X : forall l b, any_of (has_geometry d fuel) l = FOk b -> (b = true <-> exists c, In c l /\ has_mesh d c)).
    { induction l as [|c l IHl]; intros b' Hl; cbn in Hl; [injection Hl as <-; split; [discriminate|intros (c & [] & _)]|]. unbind Hl. specialize (IH _ _ E). destruct a.
      - injection Hl as <-. split; [intros _; exists c; split; [now left|now apply IH]|reflexivity].
      - rewrite (IHl _ Hl). split; [intros (x & I & M); exists x; split; [now right|exact M]|]. intros (x & [<-|I] & M); [apply IH in M; discriminate|now exists x]. }
    rewrite (X _ _ H). split; [intros (c & I & M); now apply hm_below with c|]. intros M. inversion M; subst; [congruence|]. eauto.
Qed.

(** The models at the top that are converted. *)
Definition tops (sel : nat -> bool) : Prop := forall o, In o (children d (fdScene d)) -> (sel o = true <-> opWhole op = true \/ is_limb d o = false /\ has_mesh d o).
Definition top_place (coord : mat4 T) (o : nat) : mat4 T := model_transform d op coord o (opDepth op) (mat_mul coord (local d (fdScene d))).
Lemma fbx_ok fuel objs st mats : opTarget op = "" -> convert_fbx tenth facet d fuel op objs base = FOk (st, mats) ->
  exists coord sel vs oss ms js s, fdCoord d = Some coord /\ tops sel /\ walks d (opWhole op) [] (filter sel (children d (fdScene d))) vs /\
    blocks facet d op base (top_place coord) (length objs) vs oss ms js /\ ffold (bone_step d fuel coord) js ([], []) = FOk s /\
    st = mkFS (objs ++ concat oss) ms (fst s) (snd s) /\ mats = match opOverride op with None => map (convert_material tenth d) (fdMats d) | Some _ => [] end.
Proof.
  unfold convert_fbx. intros OT H. unbind H. apply fopt_ok in E. rewrite OT in H. cbn [String.eqb negb] in H. unbind H. injection H as -> <-. rename E0 into H. rename a into coord.
  set (sel := fun o => opWhole op || negb (is_limb d o) && match has_geometry d fuel o with FOk b => b | _ => false end).
  exists coord, sel. rewrite E.
  assert (X : forall cs st0 st', ffold (fun st m => fbind (if opWhole op then FOk true else if negb (String.eqb (kind d m) "LimbNode") then has_geometry d fuel m else FOk false) (fun b : bool =>
      if b then convert_model facet d fuel fuel coord op base st m (opDepth op) (mat_mul coord (local d (fdScene d))) else FOk st)) cs st0 = FOk st' ->
    (forall o, In o cs -> (sel o = true <-> opWhole op = true \/ is_limb d o = false /\ has_mesh d o)) /\
    exists vs oss ms js s, walks d (opWhole op) [] (filter sel cs) vs /\ blocks facet d op base (top_place coord) (length (fsObjs st0)) vs oss ms js /\ ffold (bone_step d fuel coord) js (bones_of st0) = FOk s /\
      st' = mkFS (fsObjs st0 ++ concat oss) (fsMorphs st0 ++ ms) (fst s) (snd s)).
  { clear H. induction cs as [|c cs IH]; intros st0 st' H; cbn [ffold] in H.
    - injection H as <-. split; [intros o []|]. exists [], [], [], [], (bones_of st0). split; [constructor|]. split; [constructor|]. split; [reflexivity|]. cbn. rewrite !app_nil_r. now destruct st0.
    - unbind H. unbind E0.
      assert (SC : (sel c = true <-> opWhole op = true \/ is_limb d c = false /\ has_mesh d c) /\ sel c = a0).
      { unfold sel. fold (is_limb d c) in E1. destruct (opWhole op); [injection E1 as <-; cbn; intuition|]. destruct (is_limb d c); cbn [negb orb andb] in *; [injection E1 as <-; intuition discriminate|].
        rewrite E1. rewrite (has_geometry_ok _ _ _ E1). intuition discriminate. }
      destruct SC as [SC1 SC2]. destruct (IH _ _ H) as [S1 (vs & oss & ms & js & s & A & B & C & ->)]. split; [intros o [<-|I]; [exact SC1|now apply S1]|].
      cbn [filter]. rewrite SC2. destruct a0; [|injection E0 as <-; exists vs, oss, ms, js, s; auto].
      assert (OK := model_ok facet d fuel coord op base (top_place coord) fuel st0 c []). cbn [length Z.of_nat app] in OK. rewrite Z.add_0_r in OK. destruct (OK _ _ E0 eq_refl) as (vs1 & oss1 & ms1 & js1 & s1 & A1 & B1 & C1 & ->).
      cbn [fsObjs fsMorphs bones_of fsBones fsMap] in *. exists (vs1 ++ vs), (oss1 ++ oss), (ms1 ++ ms), (js1 ++ js), s. split; [now constructor|]. split; [apply blocks_app; [exact B1|now rewrite app_length in B]|].
      split; [rewrite ffold_app, C1; destruct s1; exact C|]. now rewrite concat_app, !app_assoc. }
  destruct (X _ _ _ H) as [S1 (vs & oss & ms & js & s & A & B & C & D)]. exists vs, oss, ms, js, s. repeat (split; try assumption; try reflexivity).
Qed.

(** *** Each once *)

Lemma links_parent c p : In (c, p) (links d) <-> is_model d c = true /\ is_model d p = true /\ In (c, p) (fdConns d).
Proof. unfold links. rewrite filter_In. cbn [fst snd]. rewrite andb_true_iff. tauto. Qed.
Variable depth : nat -> nat.
Hypothesis TD : tree_doc d depth.
Lemma children_links p c : is_model d p = true -> (In c (children d p) <-> In (c, p) (links d)).
Proof.
  intros P. unfold children, refs. rewrite filter_In, in_app_iff, links_parent. split.
  - intros [[I|I] C]; [rewrite (td_held _ _ TD _ _ I) in C; discriminate|]. apply in_map_iff in I. destruct I as ((x, y) & E & I). apply filter_In in I. destruct I as [I J]. cbn [fst snd] in *. apply Nat.eqb_eq in J. now subst.
  - intros (C & _ & I). split; [|exact C]. right. apply in_map_iff. exists (c, p). split; [reflexivity|]. apply filter_In. cbn. now rewrite Nat.eqb_refl.
Qed.
Lemma children_model p c : In c (children d p) -> is_model d c = true.
Proof. unfold children. intros I. now apply filter_In in I. Qed.
Lemma NoDup_fst_filter {A} (f : A * nat -> bool) (l : list (A * nat)) : NoDup (map fst l) -> NoDup (map fst (filter f l)).
Proof.
  induction l as [|x l IH]; cbn; intros H; [constructor|]. inversion H; subst. destruct (f x); cbn; [|now apply IH]. constructor; [|now apply IH]. intro I. apply in_map_iff in I. destruct I as (y & E & I). apply filter_In in I. apply H2. apply in_map_iff. exists y. tauto.
Qed.
Lemma filter_none {A} (f : A -> bool) l : (forall x, In x l -> f x = false) -> filter f l = [].
Proof. induction l as [|x l IH]; intros H; [reflexivity|]. cbn. rewrite (H x) by now left. apply IH. intros y I. apply H. now right. Qed.
Lemma children_as_links p : is_model d p = true -> children d p = map fst (filter (fun c => Nat.eqb (snd c) p) (links d)).
Proof.
  intros P. unfold children, refs. rewrite filter_app. rewrite (filter_none _ (fdHeld d p)) by (intros x I; exact (td_held _ _ TD _ _ I)). cbn [app]. unfold links. induction (fdConns d) as [|[x y] l IH]; [reflexivity|].
  cbn [filter fst snd]. destruct (Nat.eqb y p) eqn:E; cbn [map filter fst].
  - apply Nat.eqb_eq in E. subst y. rewrite P, andb_true_r. destruct (is_model d x) eqn:X; cbn [filter snd map fst]; [rewrite Nat.eqb_refl; cbn [map fst]; now rewrite IH|exact IH].
  - destruct (is_model d x && is_model d y); cbn [filter snd]; [rewrite E|]; exact IH.
Qed.
Lemma children_once p : is_model d p = true -> NoDup (children d p).
Proof. intros P. rewrite children_as_links by exact P. apply NoDup_fst_filter. exact (td_once _ _ TD). Qed.
Lemma one_parent c p q : In (c, p) (links d) -> In (c, q) (links d) -> p = q.
Proof.
  intros A B. assert (H := td_once _ _ TD). revert A B. induction (links d) as [|[x y] l IH]; intros A B; [destruct A|]. cbn in H. inversion H; subst.
  destruct A as [A|A], B as [B|B]; [congruence| | |now apply IH].
  - injection A as -> ->. exfalso. apply H2. apply in_map_iff. now exists (c, q).
  - injection B as -> ->. exfalso. apply H2. apply in_map_iff. now exists (c, p).
Qed.
Lemma parent_link c p : In (c, p) (links d) -> parent d c = Some p.
Proof.
  intros I. unfold parent. fold (links d). assert (S := parent_of_spec c (links d)). destruct (parent_of c (links d)) as [q|] eqn:E.
  - destruct S as (a & b & L & _). f_equal. apply (one_parent c q p); [rewrite L; apply in_or_app; right; now left|exact I].
  - exfalso. apply S. apply in_map_iff. now exists (c, p).
Qed.
Lemma parent_scene : parent d (fdScene d) = None.
Proof.
  unfold parent. fold (links d). assert (S := parent_of_spec (fdScene d) (links d)). destruct (parent_of _ _) as [q|]; [|reflexivity]. destruct S as (a & b & L & _). exfalso. apply (td_top _ _ TD). rewrite L, map_app. apply in_or_app. right. now left.
Qed.


(** Models above or equal. *)
Inductive above : nat -> nat -> Prop :=
| ab_same o : above o o
| ab_up o p c : above o p -> In (c, p) (links d) -> above o c.
Lemma above_depth o x : above o x -> x = o \/ (depth o < depth x)%nat.
Proof. induction 1 as [|o p c A IH I]; [now left|]. right. rewrite (td_depth _ _ TD _ _ I). destruct IH as [->|IH]; lia. Qed.
Lemma above_one o1 o2 x : above o1 x -> above o2 x -> depth o1 = depth o2 -> o1 = o2.
Proof.
  induction 1 as [o1|o1 p c A IH I]; intros B E.
  - destruct (above_depth _ _ B) as [->|L]; [reflexivity|lia].
  - inversion B as [|? q ? B' J]; subst.
    + assert (D := above_depth _ _ (ab_up _ _ _ A I)). destruct D as [D|D]; [now rewrite D|lia].
    + rewrite (one_parent _ _ _ J I) in B'. now apply IH.
Qed.
Lemma walks_once : forall path os vs, walks d (opWhole op) path os vs -> NoDup os -> (forall o, In o os -> is_model d o = true) -> (forall o o', In o os -> In o' os -> depth o = depth o') ->
  NoDup (map (fun p => last p 0%nat) vs) /\ forall x, In x (map (fun p => last p 0%nat) vs) -> exists o, In o os /\ above o x.
Proof.
  apply (walks_mut T d (opWhole op)
    (fun path o vs _ => is_model d o = true -> NoDup (map (fun p => last p 0%nat) vs) /\ forall x, In x (map (fun p => last p 0%nat) vs) -> above o x)
    (fun path os vs _ => NoDup os -> (forall o, In o os -> is_model d o = true) -> (forall o o', In o os -> In o' os -> depth o = depth o') ->
       NoDup (map (fun p => last p 0%nat) vs) /\ forall x, In x (map (fun p => last p 0%nat) vs) -> exists o, In o os /\ above o x)).
  - intros path o vs _ IH M. assert (K : forall c, In c (filter (fun c => opWhole op || negb (is_limb d c)) (children d o)) -> In (c, o) (links d)) by (intros c I; apply filter_In in I; now apply children_links).
    destruct IH as [A B].
    { apply NoDup_filter. now apply children_once. }
    { intros c I. apply filter_In in I. now apply children_model with o. }
    { intros c c' I J. rewrite (td_depth _ _ TD _ _ (K _ I)), (td_depth _ _ TD _ _ (K _ J)). reflexivity. }
    assert (U : forall x, In x (map (fun p => last p 0%nat) vs) -> (depth o < depth x)%nat /\ above o x).
    { intros x I. destruct (B x I) as (c & C & D). apply K in C. assert (E := td_depth _ _ TD _ _ C). split; [destruct (above_depth _ _ D) as [->|L]; lia|].
      clear - C D. revert C. induction D as [c|c p x D IH I]; intros C; [now apply ab_up with o; [constructor|]|]. apply ab_up with p; [now apply IH|exact I]. }
    cbn [map]. rewrite last_last. split.
    + constructor; [|exact A]. intro I. apply U in I. lia.
    + intros x [<-|I]; [constructor|]. now apply U.
  - intros path _ _ _. split; [constructor|intros x []].
  - intros path o os vs ws _ IH1 _ IH2 ND MD DD. inversion ND as [|? ? NI ND']; subst. destruct IH1 as [A1 B1]; [apply MD; now left|]. destruct IH2 as [A2 B2]; [assumption|intros; apply MD; now right|intros; apply DD; now right|].
    rewrite map_app. split.
    + revert A1 A2 B1 B2. generalize (map (fun p => last p 0%nat) vs), (map (fun p : list nat => last p 0%nat) ws). intros l1 l2 A1 A2 B1 B2. induction l1 as [|x l1 IH]; [exact A2|]. cbn. inversion A1; subst. constructor.
      * rewrite in_app_iff. intros [I|I]; [contradiction|]. destruct (B2 _ I) as (o' & I' & Ab). assert (E := above_one _ _ _ (B1 x (or_introl eq_refl)) Ab). rewrite E in NI; [contradiction|]. apply DD; [now left|now right].
      * apply IH; [assumption|]. intros y I. apply B1. now right.
    + intros x I. apply in_app_iff in I. destruct I as [I|I]; [exists o; split; [now left|now apply B1]|]. destruct (B2 _ I) as (o' & I' & Ab). exists o'. split; [now right|exact Ab].
Qed.
End O.

Section R.
Context {T : Type} {N : Num T}.
Variable d : fdoc T.
Variable op : foption T.

(** Which models a walk meets. *)
Lemma walks_closed : forall path os vs, walks d (opWhole op) path os vs -> let L := map (fun p => last p 0%nat) vs in
  (forall o, In o os -> In o L) /\ forall x c, In x L -> In c (children d x) -> (opWhole op = true \/ is_limb d c = false) -> In c L.
Proof.
  apply (walks_mut T d (opWhole op) (fun path o vs _ => let L := map (fun p => last p 0%nat) vs in In o L /\ forall x c, In x L -> In c (children d x) -> (opWhole op = true \/ is_limb d c = false) -> In c L)
    (fun path os vs _ => let L := map (fun p => last p 0%nat) vs in (forall o, In o os -> In o L) /\ forall x c, In x L -> In c (children d x) -> (opWhole op = true \/ is_limb d c = false) -> In c L)).
  - intros path o vs _ [A B]. cbn [map]. rewrite last_last. split; [now left|]. intros x c [<-|I] C K; right; [|now apply B with x]. apply A. apply filter_In. split; [exact C|]. apply orb_true_iff. destruct K as [K|K]; [now left|right; now rewrite K].
  - intros path. split; [intros o []|intros x c []].
  - intros path o os vs ws _ [A1 B1] _ [A2 B2]. cbn zeta in *. rewrite map_app. split; [intros x [<-|I]; apply in_or_app; auto|]. intros x c I C K. apply in_or_app. apply in_app_or in I. destruct I as [I|I]; [left; now apply B1 with x|right; now apply B2 with x].
Qed.
Lemma walks_found (P : nat -> Prop) : (forall x c, P x -> In c (children d x) -> (opWhole op = true \/ is_limb d c = false) -> P c) ->
  forall path os vs, walks d (opWhole op) path os vs -> (forall o, In o os -> P o) -> forall x, In x (map (fun p => last p 0%nat) vs) -> P x.
Proof.
  intros CL. apply (walks_mut T d (opWhole op) (fun path o vs _ => P o -> forall x, In x (map (fun p => last p 0%nat) vs) -> P x) (fun path os vs _ => (forall o, In o os -> P o) -> forall x, In x (map (fun p => last p 0%nat) vs) -> P x)).
  - intros path o vs _ IH Po x. cbn [map]. rewrite last_last. intros [<-|I]; [exact Po|]. apply IH; [|exact I]. intros c C. apply filter_In in C. destruct C as [C K]. apply (CL o c Po C). apply orb_true_iff in K. destruct K as [K|K]; [now left|right; now apply negb_true_iff].
  - intros path _ x [].
  - intros path o os vs ws _ IH1 _ IH2 Po x. rewrite map_app. intros I. apply in_app_or in I. destruct I as [I|I]; [apply IH1; [apply Po; now left|exact I]|apply IH2; [intros; apply Po; now right|exact I]].
Qed.
Lemma walks_shown sel vs : tops d op sel -> walks d (opWhole op) [] (filter sel (children d (fdScene d))) vs -> forall o, In o (map (fun p => last p 0%nat) vs) <-> shown d op o.
Proof.
  intros S W o. split.
  - apply (walks_found (shown d op)) with (2 := W).
    + intros x c Sx C K. now apply sh_below with x.
    + intros x I. apply filter_In in I. destruct I as [I K]. apply sh_top; [exact I|]. now apply S.
  - destruct (walks_closed _ _ _ W) as [A B]. cbn zeta in A, B. induction 1 as [o I K|o c H IH C K]; [|now apply B with o]. apply A. apply filter_In. split; [exact I|]. now apply S.
Qed.
End R.

(** *** Names *)

Lemma shown_plain n r : plain n -> shown_name (n ++ r)%string = (n ++ shown_name r)%string.
Proof.
  induction n as [|a n IH]; intros P; [reflexivity|]. cbn [append]. assert (A : Ascii.eqb a "000" = false) by (apply Ascii.eqb_neq; intro E; apply P; now left).
  assert (H := IH (fun I => P (or_intror I))). cbn [shown_name]. destruct (n ++ r)%string as [|b s] eqn:E; [now rewrite <- H|]. rewrite A. cbn [andb]. now rewrite <- H.
Qed.
Lemma append_nil (s : string) : (s ++ "")%string = s.
Proof. induction s; cbn; congruence. Qed.
Lemma cut_suffix_app p s : cut_suffix p (s ++ p)%string = s.
Proof. unfold cut_suffix. now rewrite (proj2 (trim_spec p (s ++ p)%string s) eq_refl). Qed.
Lemma prefix_app p s : prefix p (p ++ s)%string = true.
Proof. induction p as [|a p IH]; [destruct s; reflexivity|]. cbn. rewrite IH. now destruct (Ascii.ascii_dec a a). Qed.
Lemma prefix_inv p s : prefix p s = true -> exists r, s = (p ++ r)%string.
Proof. revert s. induction p as [|a p IH]; intros s H; [now exists s|]. destruct s as [|b s]; [discriminate|]. cbn [prefix] in H. destruct (Ascii.ascii_dec a b) as [->|]; [|discriminate]. destruct (IH _ H) as (r & ->). now exists r. Qed.
Lemma binary_shown n : plain n -> prefix "Model:" n = false -> object_name (binary_name n) = n.
Proof.
  intros P K. unfold object_name, binary_name. rewrite shown_plain by exact P. cbn [shown_name Ascii.eqb Bool.eqb andb append]. unfold cut_prefix, strip_prefix.
  destruct (prefix "Model::" (n ++ "::Model")%string) eqn:E; [|apply cut_suffix_app].
  assert (X : n = "Model"%string).
  { apply prefix_inv in E. destruct E as (r & E). do 5 (destruct n as [|? n]; [discriminate|]; cbn [append] in E; injection E as -> E). destruct n as [|? n]; [reflexivity|]. exfalso. cbn [append] in E. injection E as -> _.
    change (prefix "Model:" ("Model:" ++ n)%string = false) in K. rewrite prefix_app in K. discriminate. }
  subst. reflexivity.
Qed.
Lemma substring_whole n : substring 0 (String.length n) n = n.
Proof. induction n; cbn; congruence. Qed.
Lemma text_shown n : plain n -> (forall m, n <> m ++ "::Model")%string -> object_name (text_name n) = n.
Proof.
  intros P K. unfold object_name, text_name. rewrite <- (append_nil ("Model::" ++ n)%string), shown_plain.
  - cbn [shown_name]. rewrite append_nil. unfold cut_prefix, strip_prefix. rewrite prefix_app. assert (X : substring (String.length "Model::") (String.length ("Model::" ++ n)%string - String.length "Model::") ("Model::" ++ n)%string = n) by (cbn; now rewrite Nat.sub_0_r, substring_whole). rewrite X.
    unfold cut_suffix. destruct (trim_suffix "::Model" n) as [r|] eqn:E; [|reflexivity]. exfalso. apply (K r). now apply trim_spec.
  - intro I. cbn in I. repeat (destruct I as [I|I]; [discriminate|]). exact (P I).
Qed.
(** *** Depths *)
Lemma tree_parent_add k ds i p : tree_parent ds i p -> tree_parent (map (Z.add k) ds) i p.
Proof.
  intros (di & dp & A & B & C & D & E). exists (k + di), (k + dp). rewrite !nth_error_map, A, B. repeat split; try lia. intros j dj J H. rewrite nth_error_map in H. destruct (nth_error ds j) as [x|] eqn:X; [|discriminate]. injection H as <-. specialize (E j x J X). lia.
Qed.
Lemma tree_root_add k ds i : tree_root ds i -> tree_root (map (Z.add k) ds) i.
Proof.
  intros (di & A & E). exists (k + di). rewrite nth_error_map, A. repeat split; try lia. intros j dj J H. rewrite nth_error_map in H. destruct (nth_error ds j) as [x|] eqn:X; [|discriminate]. injection H as <-. specialize (E j x J X). lia.
Qed.

Section M.
Context {T : Type} {N : Num T}.
Lemma shows_depths (d : fdoc T) op L os : Forall2 (shows d op) L os -> map (@oDepth T) os = map (Z.add (opDepth op)) (map depth_of L).
Proof. induction 1 as [|l x L os H F IH]; [reflexivity|]. cbn [map]. rewrite IH. now rewrite (proj1 H). Qed.
Lemma fbx_tree tenth facet (d : fdoc T) op base fuel objs st mats : opTarget op = "" -> convert_fbx tenth facet d fuel op objs base = FOk (st, mats) ->
  exists vs os, let L := flat_map (labels d op) vs in fsObjs st = objs ++ os /\ Forall2 (shows d op) L os /\
    map (@oUID T) os = map Z.of_nat (seq (S (length objs)) (length os)) /\
    (forall i l, nth_error L i = Some l ->
       (exists c, l = ([c], None) /\ In c (children d (fdScene d)) /\ tree_root (map (@oDepth T) os) i) \/
       (exists j q, nth_error L j = Some (q, None) /\ tree_parent (map (@oDepth T) os) i j /\ below d op l q)) /\
    (forall o, In o (map (fun p => last p 0%nat) vs) <-> shown d op o) /\
    (forall depth, tree_doc d depth -> NoDup (map (fun p => last p 0%nat) vs)).
Proof.
  intros OT H. destruct (fbx_ok _ _ _ _ _ _ _ _ _ OT H) as (coord & sel & vs & oss & ms & js & s & CO & TS & W & B & J & E & _). exists vs, (concat oss). cbn zeta.
  destruct (blocks_ok facet d op base (top_place d op coord) (length objs) vs oss ms js) as [U F]; [exact (walks_nonempty _ _ _ _ _ W)|exact B|]. rewrite E. cbn [fsObjs].
  assert (F' : Forall2 (shows d op) (flat_map (labels d op) vs) (concat oss)) by (clear - F; induction F as [|l x L os D F IH]; constructor; [exact (proj1 D)|exact IH]).
  split; [reflexivity|]. split; [exact F'|]. split; [exact U|]. rewrite (shows_depths _ _ _ _ F'). split; [|split].
  - intros i l I. destruct (roots_labels d op _ _ W i l I) as [(c & -> & C & R)|(j & q & A & P & K)].
    + left. exists c. split; [reflexivity|]. split; [now apply filter_In in C|now apply tree_root_add].
    + right. exists j, q. split; [exact A|]. split; [now apply tree_parent_add|exact K].
  - exact (walks_shown d op sel vs TS W).
  - intros depth TD. apply (walks_once d op depth TD _ _ _ W).
    + apply NoDup_filter. now apply (children_once d depth TD), (td_scene _ _ TD).
    + intros o I. apply filter_In in I. now apply (children_model d (fdScene d)).
    + intros o o' I I'. apply filter_In in I, I'. rewrite (td_depth _ _ TD _ (fdScene d)), (td_depth _ _ TD o' (fdScene d)); [reflexivity| |]; apply (children_links d depth TD); tauto || exact (td_scene _ _ TD).
Qed.
End M.
