(** The conversion of FBX documents visits models depth first. *)
From Coq Require Import String Ascii List ZArith Bool Lia.
From Verif.Model Require Import Num Vec Matrix Mqo MqoDoc Mmd2Mqo FbxDoc Fbx2Mqo.
From Verif.Spec Require Import FbxSceneSpec.
Import ListNotations.
Local Open Scope string_scope.
Local Open Scope list_scope.
Local Open Scope Z_scope.

Lemma fbind_ok {A B} (x : fres A) (f : A -> fres B) b : fbind x f = FOk b -> exists a, x = FOk a /\ f a = FOk b.
Proof. destruct x; cbn; intros H; try discriminate. eauto. Qed.
Lemma fopt_ok {A} (x : option A) a : fopt x = FOk a -> x = Some a.
Proof. destruct x; cbn; congruence. Qed.
Ltac unbind H := let a := fresh "a" in let E := fresh "E" in apply fbind_ok in H; destruct H as (a & E & H).

Lemma fmap_app {A B} (f : A -> fres B) l1 l2 r1 r2 : fmap f l1 = FOk r1 -> fmap f l2 = FOk r2 -> fmap f (l1 ++ l2) = FOk (r1 ++ r2).
Proof.
  revert r1. induction l1 as [|x l1 IH]; cbn; intros r1 H1 H2; [injection H1 as <-; exact H2|]. unbind H1. unbind H1. injection H1 as <-. rewrite E. cbn. rewrite (IH _ E0 H2). reflexivity.
Qed.
Lemma fmap_nth {A B} (f : A -> fres B) l r : fmap f l = FOk r -> Forall2 (fun x y => f x = FOk y) l r.
Proof. revert r. induction l as [|x l IH]; cbn; intros r H; [injection H as <-; constructor|]. unbind H. unbind H. injection H as <-. constructor; auto. Qed.
Lemma ffold_app {A B} (f : B -> A -> fres B) l1 l2 b : ffold f (l1 ++ l2) b = fbind (ffold f l1 b) (ffold f l2).
Proof. revert b. induction l1 as [|x l1 IH]; cbn; intros b; [reflexivity|]. destruct (f b x); cbn; [apply IH|reflexivity|reflexivity]. Qed.

Section W.
Context {T : Type} {N : Num T}.
Variables tenth facet : T.
Variable d : fdoc T.
Variable full : nat.
Variable coord : mat4 T.
Variable op : foption T.
Variable base : nat.

(** Bones and the map, without the rest of the state. *)
Definition bones_state : Type := (list (bone T) * list (nat * Z))%type.
Definition bone_step (s : bones_state) (j : nat * Z) : fres bones_state :=
  match fdObjs d (fst j) with
  | Some (ODef f) =>
      match find (is_model d) (refs d (fst j)) with
      | None => FOk s
      | Some m =>
          fbind (bone_path d full (map fst (snd s)) (Some m)) (fun p =>
          fbind (ffold (add_bone d full coord) (rev p) (fst s, map (fun k => (k, 0)) (rev p) ++ snd s)) (fun s =>
          let i := match map_find (snd s) m with Some i => i | None => 0 end - 1 in
          fbind (fopt (zidx (fst s) i)) (fun b => FOk (list_set (fst s) (Z.to_nat i) (add_weights b coord f (snd j)), snd s))))
      end
  | _ => FOk s
  end.
Definition with_bones (st : fstate T) (s : bones_state) : fstate T := mkFS (fsObjs st) (fsMorphs st) (fst s) (snd s).
Definition bones_of (st : fstate T) : bones_state := (fsBones st, fsMap st).
Lemma deformer_bones st o obj : convert_deformer d full coord st o obj = fbind (bone_step (bones_of st) (o, obj)) (fun s => FOk (with_bones st s)).
Proof.
  unfold convert_deformer, bone_step. cbn [fst snd bones_of]. assert (I : forall s0 : fstate T, s0 = with_bones s0 (bones_of s0)) by (now intros []).
  destruct (fdObjs d o) as [[]|]; try (cbn [fbind]; now rewrite <- I). destruct (find _ _); [|cbn [fbind]; now rewrite <- I].
  destruct (bone_path _ _ _ _); cbn [fbind]; [|reflexivity|reflexivity]. destruct (ffold _ _ _) as [[bs mp]| |]; cbn [fbind]; [|reflexivity|reflexivity].
  cbn [fst snd]. destruct (fopt _); reflexivity.
Qed.
Definition jobs_of (k : nat) (uid : Z) : list (nat * Z) := if opNoBones op then [] else map (fun o => (o, uid)) (clusters d k).
Definition shapes_in (k : nat) : list (fshape T) :=
  if opNoShapes op then [] else flat_map (fun o => match fdObjs d o with Some (ODef f) => if String.eqb (dfKind f) "BlendShapeChannel" then shapes_of d o else [] | _ => [] end) (deformers d k).

Lemma deformers_ok obj g tr l : forall shapes st s', ffold (deformer_step d full coord op obj g tr) l (shapes, st) = FOk s' ->
  exists ss s, fmap (fun x => convert_shape x obj g tr)
     (if opNoShapes op then [] else flat_map (fun o => match fdObjs d o with Some (ODef f) => if String.eqb (dfKind f) "BlendShapeChannel" then shapes_of d o else [] | _ => [] end) l) = FOk ss /\
    ffold bone_step (if opNoBones op then [] else map (fun o => (o, oUID obj)) (filter (fun o => match fdObjs d o with Some (ODef f) => negb (String.eqb (dfKind f) "BlendShapeChannel") | _ => false end) l))
          (bones_of st) = FOk s /\
    s' = (shapes ++ ss, with_bones st s).
Proof.
  induction l as [|o l IH]; intros shapes st s' H; cbn [ffold flat_map filter map] in *.
  - injection H as <-. exists [], (bones_of st). destruct st. destruct (opNoShapes op), (opNoBones op); cbn; rewrite app_nil_r; auto.
  - unfold deformer_step in H at 1. destruct (fdObjs d o) as [[]|] eqn:O; cbn [app]; try (unbind H; injection E as <-; destruct (IH _ _ _ H) as (ss & s & A & B & C); exists ss, s; auto).
    destruct (String.eqb (dfKind f) "BlendShapeChannel") eqn:K; cbn [negb].
    + destruct (opNoShapes op) eqn:P.
      * unbind H. injection E as <-. destruct (IH _ _ _ H) as (ss & s & A & B & C). exists ss, s. auto.
      * unbind H. unbind E. injection E as <-. destruct (IH _ _ _ H) as (ss & s & A & B & C). exists (a0 ++ ss), s. split; [now apply fmap_app|]. split; [exact B|]. now rewrite C, app_assoc.
    + destruct (opNoBones op) eqn:P.
      * unbind H. injection E as <-. destruct (IH _ _ _ H) as (ss & s & A & B & C). exists ss, s. destruct (opNoShapes op); auto.
      * unbind H. unbind E. injection E as <-. rewrite deformer_bones in E0. unbind E0. injection E0 as <-. destruct (IH _ _ _ H) as (ss & s & A & B & C). exists ss, s.
        split; [destruct (opNoShapes op); exact A|]. split; [cbn [map ffold]; rewrite E; destruct a; exact B|]. rewrite C. reflexivity.
Qed.

(** What one model adds. *)
Definition head (n : nat) (o : nat) (depth : Z) : object T := new_fobj facet (object_name (name d o)) (Z.of_nat n + 1) depth.
Definition block (n : nat) (o : nat) (depth : Z) (tr : mat4 T) (os : list (object T)) (ms : list (string * list string)) (js : list (nat * Z)) : Prop :=
  exists mats, model_materials d op base o depth = FOk mats /\
  match geometry d o with
  | None => os = [head n o depth] /\ ms = [] /\ js = []
  | Some (k, g) =>
      exists fs ts, convert_faces g (normal_transform tr) mats (length (polygons g)) 0 0 (polygons g) = FOk fs /\
      let obj := set_faces (set_verts (head n o depth) (map (mat_apply tr) (gVerts g))) fs in
      fmap (fun x => convert_shape x obj g tr) (if opNoShapes op then [] else all_shapes d k g) = FOk ts /\
      os = obj :: number_targets (S n) (depth + 1) ts /\
      ms = match ts with [] => [] | _ => [(oName obj, map (@oName T) ts)] end /\
      js = jobs_of k (Z.of_nat n + 1)
  end.
Lemma one_ok st o depth tr st' : convert_one facet d full coord op base st o depth tr = FOk st' ->
  exists os ms js s, block (length (fsObjs st)) o depth tr os ms js /\ ffold bone_step js (bones_of st) = FOk s /\ st' = mkFS (fsObjs st ++ os) (fsMorphs st ++ ms) (fst s) (snd s).
Proof.
  unfold convert_one. intros H. unbind H. destruct (geometry d o) as [[k g]|] eqn:G.
  - unbind H. destruct a0 as [[obj shapes] st1]. unfold convert_geometry in E0. unbind E0. unbind E0. destruct a1 as [sh st2]. unbind E0. injection E0 as <- <- <-.
    destruct (deformers_ok _ _ _ _ _ _ _ E2) as (ss & s & A & B & C). injection C as -> ->. cbn [app] in *.
    injection H as <-. eexists. eexists. eexists. exists s. split; [|split; [exact B|]].
    + exists a. split; [exact E|]. rewrite G. exists a0, (ss ++ a1). split; [exact E1|]. split.
      * unfold all_shapes. destruct (opNoShapes op); [injection A as <-; injection E3 as <-; reflexivity|]. now apply fmap_app.
      * split; [reflexivity|]. split; reflexivity.
    + cbn [with_bones fsObjs fsMorphs fsBones fsMap]. destruct (ss ++ a1); [now rewrite app_nil_r|reflexivity].
  - injection H as <-. exists [head (length (fsObjs st)) o depth], [], [], (bones_of st). split; [exists a; split; [exact E|]; rewrite G; auto|]. split; [reflexivity|]. now rewrite app_nil_r.
Qed.

(** The transform of the last model of a path, given those of the first models. *)
Definition placed (top : nat -> mat4 T) (path : list nat) : mat4 T :=
  match path with [] => mat_id | o :: r => fold_left mat_mul (map (local d) r) (top o) end.
Lemma placed_snoc top path o : path <> [] -> placed top (path ++ [o]) = mat_mul (placed top path) (local d o).
Proof. destruct path as [|p path]; [congruence|]. intros _. cbn [app placed]. now rewrite map_app, fold_left_app. Qed.

Inductive blocks (top : nat -> mat4 T) : nat -> list (list nat) -> list (list (object T)) -> list (string * list string) -> list (nat * Z) -> Prop :=
| blocks_nil n : blocks top n [] [] [] []
| blocks_cons n path vs os oss ms mss js jss :
    block n (last path 0%nat) (opDepth op + Z.of_nat (length path) - 1) (placed top path) os ms js -> blocks top (n + length os) vs oss mss jss -> blocks top n (path :: vs) (os :: oss) (ms ++ mss) (js ++ jss).
Lemma blocks_app top n vs oss ms js vs' oss' ms' js' : blocks top n vs oss ms js -> blocks top (n + length (concat oss)) vs' oss' ms' js' -> blocks top n (vs ++ vs') (oss ++ oss') (ms ++ ms') (js ++ js').
Proof.
  intros B. revert vs' oss' ms' js'. induction B as [n|n path vs os oss ms mss js jss H B IH]; intros vs' oss' ms' js' B'; cbn [concat length app] in *; [now rewrite Nat.add_0_r in B'|].
  rewrite <- !app_assoc. constructor; [exact H|]. apply IH. rewrite app_length in B'. now rewrite <- Nat.add_assoc.
Qed.

Lemma model_ok top fuel : forall st o path above st', convert_model facet d full fuel coord op base st o (opDepth op + Z.of_nat (length path)) above = FOk st' ->
  model_transform d op coord o (opDepth op + Z.of_nat (length path)) above = placed top (path ++ [o]) ->
  exists vs oss ms js s, walk d (opWhole op) path o vs /\ blocks top (length (fsObjs st)) vs oss ms js /\ ffold bone_step js (bones_of st) = FOk s /\
    st' = mkFS (fsObjs st ++ concat oss) (fsMorphs st ++ ms) (fst s) (snd s).
Proof.
  induction fuel as [|fuel IH]; intros st o path above st' H P; [discriminate|]. cbn [convert_model] in H. rewrite P in H. unbind H. destruct (one_ok _ _ _ _ _ E) as (os & ms & js & s & B & J & ->). clear E.
  assert (D : opDepth op + Z.of_nat (length path) + 1 = opDepth op + Z.of_nat (length (path ++ [o]))) by (rewrite app_length; cbn; lia). rewrite D in H.
  assert (X : forall cs st1 st2, ffold (fun st c => if opWhole op || negb (String.eqb (kind d c) "LimbNode")
       then convert_model facet d full fuel coord op base st c (opDepth op + Z.of_nat (length (path ++ [o]))) (placed top (path ++ [o])) else FOk st) cs st1 = FOk st2 ->
    exists vs oss ms js s, walks d (opWhole op) (path ++ [o]) (filter (fun c => opWhole op || negb (is_limb d c)) cs) vs /\ blocks top (length (fsObjs st1)) vs oss ms js /\ ffold bone_step js (bones_of st1) = FOk s /\
      st2 = mkFS (fsObjs st1 ++ concat oss) (fsMorphs st1 ++ ms) (fst s) (snd s)).
  { induction cs as [|c cs IHc]; intros st1 st2 Hc; cbn [ffold filter] in *.
    - injection Hc as <-. exists [], [], [], [], (bones_of st1). split; [constructor|]. split; [constructor|]. split; [reflexivity|]. cbn. rewrite !app_nil_r. now destruct st1.
    - unfold is_limb at 1. unbind Hc. destruct (opWhole op || negb (String.eqb (kind d c) "LimbNode")) eqn:L.
      + destruct (IH _ _ _ _ _ E) as (vs1 & oss1 & ms1 & js1 & s1 & A1 & A2 & A3 & ->).
        { rewrite (placed_snoc top (path ++ [o]) c) by (intros Z0; apply app_eq_nil in Z0; destruct Z0; discriminate). unfold model_transform.
          replace (_ =? opDepth op) with false by (symmetry; apply Z.eqb_neq; rewrite app_length; cbn [length]; lia). now rewrite andb_false_r. }
        destruct (IHc _ _ Hc) as (vs2 & oss2 & ms2 & js2 & s2 & C1 & C2 & C3 & ->). cbn [fsObjs fsMorphs bones_of fsBones fsMap] in *.
        exists (vs1 ++ vs2), (oss1 ++ oss2), (ms1 ++ ms2), (js1 ++ js2), s2. split; [now constructor|]. split; [apply blocks_app; [exact A2|now rewrite app_length in C2]|].
        split; [rewrite ffold_app, A3; cbn [fbind]; destruct s1; exact C3|]. now rewrite concat_app, !app_assoc.
      + injection E as <-. exact (IHc _ _ Hc). }
  destruct (X _ _ _ H) as (vs & oss & ms' & js' & s' & A1 & A2 & A3 & ->). clear X. cbn [fsObjs fsMorphs bones_of fsBones fsMap] in *.
  exists ((path ++ [o]) :: vs), (os :: oss), (ms ++ ms'), (js ++ js'), s'. split; [now constructor|]. split.
  - constructor; [|now rewrite app_length in A2]. rewrite last_last. replace (opDepth op + Z.of_nat (length (path ++ [o])) - 1) with (opDepth op + Z.of_nat (length path)) by (rewrite app_length; cbn; lia). exact B.
  - split; [rewrite ffold_app, J; cbn [fbind]; destruct s; exact A3|]. cbn [concat]. now rewrite !app_assoc.
Qed.
End W.
