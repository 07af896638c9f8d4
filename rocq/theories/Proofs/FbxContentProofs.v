(** The contents of objects read from FBX files are what their nodes say. *)
From Coq Require Import String List ZArith Bool Lia.
From Verif.Model Require Import Num Vec Matrix Codec Fbx FbxDoc FbxRead Fbx2Mqo.
From Verif.Spec Require Import FbxReadSpec FbxContentSpec.
From Verif.Proofs Require Import FbxReadProofs.
Import ListNotations.
Local Open Scope list_scope.
Local Open Scope Z_scope.

Lemma child_find n x c : child n x c -> kid n (Some x) = Some c.
Proof.
  intros (l1 & l2 & E & H & F). cbn [kid]. rewrite E. clear E. induction l1 as [|y l1 IH]; cbn [find_child app].
  - rewrite H, beq_refl. reflexivity.
  - destruct (beq (node_name y) (byt n)) eqn:B; [apply beq_eq in B; exfalso; apply (F y); [left; reflexivity|exact B]|]. apply IH. intros z Z. apply F. right. exact Z.
Qed.
Lemma find_child_ok n x c : kid n (Some x) = Some c -> child n x c.
Proof.
  cbn [kid]. unfold child. generalize (node_kids x). induction l as [|y l IH]; cbn [find_child]; [discriminate|]. destruct (beq (node_name y) (byt n)) eqn:B.
  - intros H. injection H as <-. exists [], l. apply beq_eq in B. cbn. intuition.
  - intros H. destruct (IH H) as (l1 & l2 & -> & E & F). exists (y :: l1), l2. split; [reflexivity|]. split; [exact E|].
    intros z [<-|Z]; [|apply F; exact Z]. intros X. apply beq_iff in X. congruence.
Qed.
Lemma child_iff n x c : kid n (Some x) = Some c <-> child n x c.
Proof. split; [apply find_child_ok|apply child_find]. Qed.
Lemma childless_find n x : childless n x -> kid n (Some x) = None.
Proof.
  unfold childless. cbn [kid]. generalize (node_kids x). induction l as [|y l IH]; intros F; cbn [find_child]; [reflexivity|].
  destruct (beq (node_name y) (byt n)) eqn:B; [apply beq_eq in B; exfalso; apply (F y); [left; reflexivity|exact B]|]. apply IH. intros z Z. apply F. right. exact Z.
Qed.

(** Last elements. *)
Lemma find_last {A} (f : A -> bool) l x : find f (rev l) = Some x <-> exists l1 l2, l = l1 ++ x :: l2 /\ f x = true /\ forall y, In y l2 -> f y = false.
Proof.
  split.
  - revert x. induction l as [|a l IH] using rev_ind; intros x; [discriminate|]. rewrite rev_app_distr. cbn [rev app find]. destruct (f a) eqn:B.
    + intros H. injection H as <-. exists l, []. split; [reflexivity|]. split; [exact B|intros y []].
    + intros H. destruct (IH _ H) as (l1 & l2 & -> & E & F). exists l1, (l2 ++ [a]). rewrite <- app_assoc. split; [reflexivity|]. split; [exact E|].
      intros y Y. apply in_app_or in Y. destruct Y as [Y|[<-|[]]]; [apply F; exact Y|exact B].
  - intros (l1 & l2 & -> & E & F). rewrite rev_app_distr. cbn [rev]. rewrite <- app_assoc.
    assert (H : forall l, (forall y, In y l -> f y = false) -> forall r, find f (rev l ++ r) = find f r).
    { induction l as [|a l IH] using rev_ind; intros G r; [reflexivity|]. rewrite rev_app_distr. cbn. rewrite (G a) by (apply in_or_app; right; left; reflexivity).
      apply IH. intros y Y. apply G. apply in_or_app. left. exact Y. }
    rewrite (H l2 F). cbn. rewrite E. reflexivity.
Qed.
Lemma byt_cons s : s <> EmptyString -> exists c r, byt s = c :: r.
Proof. destruct s; [congruence|]. intros _. cbn. eauto. Qed.
Lemma row_named_iff n r : n <> EmptyString -> row_named n r = true <-> string_at r 0 (byt n).
Proof.
  intros H. unfold row_named. rewrite beq_iff. split; [|apply string_str].
  destruct (byt_cons n H) as (c & q & E). rewrite E. apply str_string.
Qed.
Lemma row_iff o n r : n <> EmptyString -> row (Some o) n = Some r <-> row_says o n r.
Proof.
  intros H. unfold row, row_says. split.
  - destruct (kid "Properties70" (Some o)) as [p|] eqn:P; [|discriminate]. cbn [kids_at]. rewrite find_last. intros (l1 & l2 & E & F & G). exists p, l1, l2.
    split; [apply child_iff; exact P|]. split; [exact E|]. split; [apply row_named_iff; assumption|]. intros y Y X. apply row_named_iff in X; [|exact H]. rewrite (G y Y) in X. discriminate.
  - intros (p & l1 & l2 & P & E & F & G). apply child_iff in P. rewrite P. cbn [kids_at]. rewrite find_last. exists l1, l2. split; [exact E|]. split; [apply row_named_iff; assumption|].
    intros y Y. destruct (row_named n y) eqn:B; [|reflexivity]. apply row_named_iff in B; [|exact H]. exfalso. exact (G y Y B).
Qed.
Lemma template_iff root c ty t : template root (c :: ty) = Some t <-> template_says root (c :: ty) t.
Proof.
  unfold template, template_says, top.
  assert (K : forall y, is_named "ObjectType" y && beq (to_str (attr_at_ (node_attrs y) 0)) (c :: ty) = true <-> node_name y = byt "ObjectType" /\ string_at y 0 (c :: ty)).
  { intros y. rewrite andb_true_iff, named_iff, beq_iff. split; intros [A B]; (split; [exact A|]); [apply str_string; exact B|apply string_str; exact B]. }
  split.
  - destruct (find _ _) as [x|] eqn:F; [|discriminate]. intros P. destruct (kid "Definitions" (Some root)) as [d|] eqn:D; [|discriminate F].
    apply find_last in F. destruct F as (l1 & l2 & E & F & G). exists d, x, l1, l2. apply K in F. destruct F as [F1 F2]. split; [apply child_iff; exact D|].
    split; [exact E|]. split; [exact F1|]. split; [exact F2|]. split; [|apply child_iff; exact P].
    intros y Y X. apply K in X. rewrite (G y Y) in X. discriminate.
  - intros (d & x & l1 & l2 & D & E & F1 & F2 & G & P). apply child_iff in D, P. rewrite D. cbn [kids_at].
    replace (find _ (rev (node_kids d))) with (Some x); [exact P|]. symmetry. apply find_last. exists l1, l2. split; [exact E|]. split; [apply K; auto|].
    intros y Y. destruct (is_named "ObjectType" y && _) eqn:B; [|reflexivity]. apply K in B. exfalso. exact (G y Y B).
Qed.
Lemma row_nil n : row None n = None.
Proof. reflexivity. Qed.
Lemma property_iff root o c ty n r : n <> EmptyString -> node_name o = c :: ty -> property_row (Some o) (template root (node_name o)) n = Some r <-> property_says root o n r.
Proof.
  intros H T. unfold property_row, property_says. destruct (row (Some o) n) as [r'|] eqn:R.
  - pose proof (proj1 (row_iff o n r' H) R) as S0. split.
    + intros X. injection X as <-. left. exact S0.
    + intros [X|[X _]]; [|exfalso; exact (X r' S0)]. apply row_iff in X; [|exact H]. congruence.
  - assert (NO : forall q, ~ row_says o n q) by (intros q X; apply row_iff in X; [congruence|exact H]). split.
    + intros X. right. split; [exact NO|]. rewrite T in *. destruct (template root (c :: ty)) as [t|] eqn:E; [|discriminate]. exists t. split; [apply template_iff; exact E|apply row_iff; assumption].
    + intros [X|[_ (t & E & X)]]; [exfalso; exact (NO r X)|]. rewrite T in *. apply template_iff in E. rewrite E. apply row_iff; assumption.
Qed.

Section Numbers.
Context {T : Type} {N : Num T}.
Variables (f32 f64 of_int : Z -> T) (local_of : (string -> list (option T)) -> mat4 T).

Lemma number_of a : float_of f32 f64 of_int a = number f32 f64 of_int a.
Proof. destruct a; reflexivity. Qed.
Lemma some_floats_map (f : Z -> T) l : l <> [] -> some_floats (map f l) = Some (map f l).
Proof. destruct l; [congruence|reflexivity]. Qed.
Lemma floats_each l xs : Forall2 (fun a x => number f32 f64 of_int a = Some x) l xs -> floats_of f32 f64 of_int l = xs.
Proof.
  intros F. unfold floats_of. assert (Q : float_array f32 f64 of_int (attr_at_ l 0) = None).
  { inversion F as [|a x r xs' E _]; subst; [reflexivity|]. destruct a; try discriminate; reflexivity. }
  rewrite Q. clear Q. induction F as [|a x r xs E _ IH]; [reflexivity|]. cbn [map]. rewrite number_of, E, IH. reflexivity.
Qed.
Lemma floats_ok l xs : float_list f32 f64 of_int l xs -> floats_of f32 f64 of_int l = xs.
Proof.
  intros H. inversion H as [l0 r|l0 r F|l0 r F|l0 r F|l0 xs0 F]; subst; [| | | |apply floats_each; exact F];
    unfold floats_of; cbn [attr_at_ nth_error float_array]; try rewrite (some_floats_map _ _ F); reflexivity.
Qed.
Lemma wrap_small v : small v -> wrap32 v = v.
Proof. unfold small, wrap32. intros H. rewrite Z.mod_small by lia. lia. Qed.
Lemma some_ints_ok l : l <> [] -> some_ints l = Some l.
Proof. destruct l; [congruence|reflexivity]. Qed.
Lemma wrap_map l : Forall small l -> map wrap32 l = l.
Proof. induction 1 as [|v l H _ IH]; [reflexivity|]. cbn [map]. rewrite (wrap_small _ H), IH. reflexivity. Qed.
Lemma ints_each l xs : Forall2 (fun a v => (a = AI8 v \/ a = AI16 v \/ a = AI32 v \/ a = AI64 v) /\ small v) l xs -> ints_of l = xs.
Proof.
  intros F. unfold ints_of. assert (Q : int_array (attr_at_ l 0) = None).
  { inversion F as [|a x r xs' [E _] _]; subst; [reflexivity|]. destruct E as [-> | [-> | [-> | ->]]]; reflexivity. }
  rewrite Q. clear Q. induction F as [|a x r xs [E S0] _ IH]; [reflexivity|]. cbn [map]. rewrite IH.
  destruct E as [-> | [-> | [-> | ->]]]; cbn [to_int64]; rewrite (wrap_small _ S0); reflexivity.
Qed.
Lemma ints_ok l xs : int_list l xs -> ints_of l = xs.
Proof.
  intros H. inversion H as [l0 r F|l0 r F|l0 r|l0 r F S0|l0 xs0 F]; subst; [| | | |apply ints_each; exact F]; unfold ints_of; cbn [attr_at_ nth_error int_array].
  - rewrite (some_ints_ok _ F). reflexivity.
  - rewrite (some_ints_ok _ F). reflexivity.
  - reflexivity.
  - rewrite (wrap_map _ S0), (some_ints_ok _ F). reflexivity.
Qed.
Lemma triples_ok (l : list T) ps : points l ps -> triples l = ps.
Proof. induction 1 as [|x y z r l _ IH]; [reflexivity|]. cbn. rewrite IH. reflexivity. Qed.
Lemma pairs_ok (l : list T) ps : points2 l ps -> pairs l = ps.
Proof. induction 1 as [|x y r l _ IH]; [reflexivity|]. cbn. rewrite IH. reflexivity. Qed.
Lemma has_floats_ok n x l : has_floats f32 f64 of_int n x l -> floats_of f32 f64 of_int (attrs_at (kid n (Some x))) = l.
Proof.
  intros [(c & C & F)|[C ->]]; [apply child_iff in C; rewrite C; apply floats_ok; exact F|]. rewrite (childless_find _ _ C). reflexivity.
Qed.
Lemma has_ints_ok n x l : has_ints n x l -> ints_of (attrs_at (kid n (Some x))) = l.
Proof.
  intros [(c & C & F)|[C ->]]; [apply child_iff in C; rewrite C; apply ints_ok; exact F|]. rewrite (childless_find _ _ C). reflexivity.
Qed.
Lemma has_string_ok n x s : has_string n x s -> layer_string (Some x) n = str s.
Proof. intros (c & C & F). apply child_iff in C. unfold layer_string. rewrite C. cbn [attrs_at]. rewrite (string_str _ _ _ F). reflexivity. Qed.
Lemma layer_ok {A} m el idx (vals : option node -> list A) (P : node -> list A -> Prop) : (forall e v, P e v -> vals (Some e) = v) ->
  layer_says m el idx (read_layer (Some m) el idx vals) P.
Proof.
  intros H e E. apply child_iff in E. unfold read_layer. rewrite E. cbn [lMapping lReference lIndexes lValues]. split; [intros s X; apply has_string_ok; exact X|].
  split; [intros s X; apply has_string_ok; exact X|]. split; [intros v X; apply has_ints_ok; exact X|]. intros v X. apply H. exact X.
Qed.
Lemma shape_ok m : shape_says f32 f64 of_int m (read_shape f32 f64 of_int m).
Proof.
  unfold shape_says, read_shape. cbn [shName shVerts shIndexes]. split; [|split; [|split]].
  - intros a b c r n E X. unfold shape_name. rewrite E. cbn [length Nat.leb]. rewrite <- E. rewrite (string_str _ _ _ X). reflexivity.
  - intros a n E X. unfold shape_name. rewrite E. cbn [length Nat.leb]. rewrite <- E. rewrite (string_str _ _ _ X). reflexivity.
  - intros l ps X Y. rewrite (has_floats_ok _ _ _ X). apply triples_ok. exact Y.
  - intros l X. apply has_ints_ok. exact X.
Qed.
Lemma geometry_ok m : geometry_says f32 f64 of_int m (read_geom f32 f64 of_int m).
Proof.
  unfold geometry_says, read_geom. cbn [gVerts gIndex gOwn gMats gNormals gUVs gShapes].
  split; [intros l ps X Y; rewrite (has_floats_ok _ _ _ X); apply triples_ok; exact Y|]. do 2 (split; [intros l X; apply has_ints_ok; exact X|]).
  split; [apply layer_ok; intros e v []|]. split; [apply layer_ok; intros e v (l & X & Y); rewrite (has_floats_ok _ _ _ X); apply triples_ok; exact Y|].
  split; [apply layer_ok; intros e v (l & X & Y); rewrite (has_floats_ok _ _ _ X); apply pairs_ok; exact Y|].
  exists (filter (is_named "Shape") (node_kids m)). split.
  - induction (filter (is_named "Shape") (node_kids m)) as [|x l IH]; cbn [map]; constructor; [apply shape_ok|exact IH].
  - apply filter_ext. intros x. destruct (list_eq_dec Z.eq_dec (node_name x) (byt "Shape")) as [E|E]; [apply named_iff; exact E|].
    destruct (is_named "Shape" x) eqn:B; [apply named_iff in B; contradiction|reflexivity].
Qed.
Lemma deformer_ok m : deformer_says f32 f64 of_int m (read_def f32 f64 of_int m).
Proof.
  unfold deformer_says, read_def. cbn [dfWeights dfIndexes dfLink]. split; [intros l X; apply has_floats_ok; exact X|]. split; [intros l X; apply has_ints_ok; exact X|].
  intros. rewrite (has_floats_ok _ _ _ H). reflexivity.
Qed.
Lemma props_ok root o c ty n : n <> EmptyString -> node_name o = c :: ty -> values_say f32 f64 of_int root o n (props f32 f64 of_int (Some o) (template root (node_name o)) n).
Proof.
  intros H E. unfold values_say, props, row_values. split.
  - intros r X. apply (property_iff root o c ty n r H E) in X. rewrite X. apply map_ext. apply number_of.
  - intros X. destruct (property_row (Some o) (template root (node_name o)) n) as [r|] eqn:P; [|reflexivity]. exfalso. apply (property_iff root o c ty n r H E) in P. exact (X r P).
Qed.

(** What depends on children only. *)
Definition alike (n m : node) : Prop := node_name n = node_name m /\ node_kids n = node_kids m.
Lemma alike_child n m x c : alike n m -> child x n c <-> child x m c.
Proof. intros [_ E]. unfold child. rewrite E. tauto. Qed.
Lemma read_def_kids n m : alike n m -> kids_at (Some n) = kids_at (Some m).
Proof. intros [_ E]. exact E. Qed.
Lemma row_alike n m p r : alike n m -> row_says n p r <-> row_says m p r.
Proof. intros A. unfold row_says. split; intros (q & l1 & l2 & H & R); exists q, l1, l2; (split; [apply (alike_child n m); assumption|exact R]). Qed.
Lemma property_alike root n m p r : alike n m -> property_says root n p r <-> property_says root m p r.
Proof.
  intros A. unfold property_says. destruct A as [A1 A2]. rewrite A1.
  split; (intros [H|[H1 H2]]; [left; apply (row_alike n m); [split|]; assumption|right; split; [intros q Q; apply (H1 q); apply (row_alike n m); [split|]; assumption|exact H2]]).
Qed.
Lemma values_alike root n m p v : alike n m -> values_say f32 f64 of_int root n p v -> values_say f32 f64 of_int root m p v.
Proof.
  intros A [H1 H2]. split.
  - intros r X. apply H1. apply (property_alike root n m); assumption.
  - intros X. apply H2. intros r Y. apply (X r). apply (property_alike root n m); assumption.
Qed.
Lemma deformer_alike n m f : alike n m -> deformer_says f32 f64 of_int n f -> deformer_says f32 f64 of_int m f.
Proof. intros [_ E]. unfold deformer_says, has_floats, has_ints, child, childless. rewrite E. auto. Qed.
Lemma geometry_alike n m g : alike n m -> geometry_says f32 f64 of_int n g -> geometry_says f32 f64 of_int m g.
Proof. intros [_ E]. unfold geometry_says, layer_says, has_floats, has_ints, child, childless. rewrite E. auto. Qed.

Lemma object_at root k m : nth_error (kids_at (top root "Objects")) k = Some m ->
  exists n, nth_error (object_nodes root) k = Some n /\ alike n m /\
    (forall j s, object_string root m j s -> string_at n (S j) s).
Proof.
  intros E. unfold object_nodes, object_string, old_version. destruct (version root =? 6100).
  - rewrite (numbered_nth _ 1 k m E). eexists. split; [reflexivity|]. split; [split; reflexivity|]. intros j s H. exact H.
  - exists m. split; [exact E|]. split; [split; reflexivity|]. auto.
Qed.
Theorem contents root i m : nth_error (kids_at (top root "Objects")) i = Some m ->
  let o := fdObjs (read_doc f32 f64 of_int local_of root) (S i) in
  (node_name m = byt "Geometry" -> exists g, o = Some (OGeom g) /\ geometry_says f32 f64 of_int m g /\ (forall s, object_string root m 1 s -> gKind g = str s)) /\
  (node_name m = byt "Deformer" -> exists f, o = Some (ODef f) /\ deformer_says f32 f64 of_int m f /\ (forall s, object_string root m 1 s -> dfKind f = str s)) /\
  (node_name m = byt "Material" -> exists x, o = Some (OMat x) /\ (forall s, object_string root m 0 s -> fxName x = str s) /\
     (forall n, n <> EmptyString -> values_say f32 f64 of_int root m n (fxProp x n))) /\
  (node_name m = byt "Model" -> exists x p, o = Some (OModel x) /\ (forall s, object_string root m 0 s -> fmName x = str s) /\ (forall s, object_string root m 1 s -> fmKind x = str s) /\
     (forall n, n <> EmptyString -> values_say f32 f64 of_int root m n (p n)) /\ fmLocal x = local_of p /\ fmPivot x = attr_vec (p "ScalingPivot"%string) nzero nzero nzero).
Proof.
  intros E o. destruct (object_at root i m E) as (n & En & A & S0). subst o. cbn [read_doc fdObjs objects]. rewrite En. unfold read_obj, is_named. pose proof A as [A1 A2].
  split; [|split; [|split]]; intros H; rewrite A1, H.
  - eexists. split; [reflexivity|]. split; [apply (geometry_alike n); [exact A|apply geometry_ok]|]. intros s X. cbn [gKind read_geom]. rewrite (string_str _ _ _ (S0 _ _ X)). reflexivity.
  - eexists. split; [reflexivity|]. split; [apply (deformer_alike n); [exact A|apply deformer_ok]|]. intros s X. cbn [dfKind read_def]. rewrite (string_str _ _ _ (S0 _ _ X)). reflexivity.
  - eexists. split; [reflexivity|]. split; [intros s X; cbn [fxName]; rewrite (string_str _ _ _ (S0 _ _ X)); reflexivity|].
    intros p Hp. cbn [fxProp]. apply (values_alike root n); [exact A|]. rewrite <- H, <- A1. eapply props_ok; [exact Hp|]. rewrite A1, H. reflexivity.
  - eexists _, _. split; [reflexivity|]. split; [intros s X; cbn [fmName read_model attrs_at]; rewrite (string_str _ _ _ (S0 _ _ X)); reflexivity|].
    split; [intros s X; cbn [fmKind read_model attrs_at]; rewrite (string_str _ _ _ (S0 _ _ X)); reflexivity|]. split; [|split; reflexivity].
    intros p Hp. apply (values_alike root n); [exact A|]. rewrite <- H, <- A1. eapply props_ok; [exact Hp|]. rewrite A1, H. reflexivity.
Qed.

(** Models of version 6100 hold their geometry. *)
Lemma numbered_length l : forall k, length (numbered_from k l) = length l.
Proof. induction l as [|y l IH]; intros k; [reflexivity|]. cbn [numbered_from length]. rewrite IH. reflexivity. Qed.
Theorem holding root i m : nth_error (kids_at (top root "Objects")) i = Some m ->
  let d := read_doc f32 f64 of_int local_of root in
  (version root = 6100 -> node_name m = byt "Model" -> (exists c, child "Vertices" m c) ->
    exists o g, fdHeld d (S i) = [o] /\ fdObjs d o = Some (OGeom g) /\ geometry_says f32 f64 of_int m g /\ (length (kids_at (top root "Objects")) < o)%nat) /\
  (version root <> 6100 \/ node_name m <> byt "Model" \/ childless "Vertices" m -> fdHeld d (S i) = []).
Proof.
  intros E d. destruct (object_at root i m E) as (n & En & A & _). subst d. cbn [read_doc fdObjs fdHeld held]. rewrite En. pose proof A as [A1 A2]. split.
  - intros V M [c C]. assert (H : holds root n = true).
    { unfold holds, old_version, is_named. rewrite V, A1, M. cbn [Z.eqb Pos.eqb]. rewrite (beq_refl (byt "Model")). apply (alike_child n m) in C; [|exact A]. apply child_iff in C. rewrite C. reflexivity. }
    assert (L : (i < count root)%nat) by (apply nth_error_Some; unfold count; rewrite En; discriminate).
    rewrite H. exists (S (i + count root)), (read_geom f32 f64 of_int n). split; [reflexivity|]. split; [|split].
    + cbn [objects]. assert (X : nth_error (object_nodes root) (i + count root) = None) by (apply nth_error_None; unfold count; lia). rewrite X.
      replace (i + count root - count root)%nat with i by lia. rewrite En, H. reflexivity.
    + apply (geometry_alike n); [exact A|apply geometry_ok].
    + assert (Q : length (kids_at (top root "Objects")) = count root).
      { unfold count, object_nodes. destruct (old_version root); [rewrite numbered_length|]; reflexivity. }
      lia.
  - intros H. assert (X : holds root n = false); [|rewrite X; reflexivity]. unfold holds, old_version. destruct H as [H|[H|H]].
    + apply Z.eqb_neq in H. rewrite H. reflexivity.
    + destruct (is_named "Model" n) eqn:B; [apply named_iff in B; rewrite A1 in B; contradiction|]. rewrite andb_false_r. reflexivity.
    + rewrite childless_find; [apply andb_false_r|]. unfold childless in *. rewrite A2. exact H.
Qed.

(** Axes. *)
Lemma setting_ok root g n r v def : n <> EmptyString -> kid "GlobalSettings" (Some root) = Some g -> property_says root g n r -> whole_at r 4 v -> setting root n def = v.
Proof.
  intros H G P W. unfold setting, settings_row, top. rewrite G.
  assert (NG : node_name g = byt "GlobalSettings") by (apply child_iff in G; destruct G as (l1 & l2 & _ & X & _); exact X).
  rewrite <- NG. rewrite (proj2 (property_iff root g _ _ n r H NG) P). apply whole_int. exact W.
Qed.
Lemma sign_ok root g n r v : n <> EmptyString -> kid "GlobalSettings" (Some root) = Some g -> property_says root g n r -> whole_at r 4 v ->
  sign f32 f64 of_int root n = of_int v.
Proof.
  intros H G P W. unfold sign, props, top. rewrite G.
  assert (NG : node_name g = byt "GlobalSettings") by (apply child_iff in G; destruct G as (l1 & l2 & _ & X & _); exact X).
  rewrite <- NG. rewrite (proj2 (property_iff root g _ _ n r H NG) P). unfold row_values, attr_num. destruct W as (a & E & W).
  rewrite nth_error_map. assert (X : nth_error (skipn 4 (node_attrs r)) 0 = Some a).
  { destruct (node_attrs r) as [|? [|? [|? [|? [|? ?]]]]]; cbn in E |- *; congruence. }
  rewrite X. destruct W as [-> | [-> | [-> | ->]]]; reflexivity.
Qed.
Theorem axes root g : child "GlobalSettings" root g ->
  forall r1 r2 r3 q1 q2 q3 a b c x y z, property_says root g "CoordAxis" r1 -> property_says root g "UpAxis" r2 -> property_says root g "FrontAxis" r3 ->
  property_says root g "CoordAxisSign" q1 -> property_says root g "UpAxisSign" q2 -> property_says root g "FrontAxisSign" q3 ->
  whole_at r1 4 a -> whole_at r2 4 b -> whole_at r3 4 c -> whole_at q1 4 x -> whole_at q2 4 y -> whole_at q3 4 z ->
  fdCoord (read_doc f32 f64 of_int local_of root) = coord_matrix a b c (of_int x) (of_int y) (of_int z).
Proof.
  intros G r1 r2 r3 q1 q2 q3 a b c x y z R1 R2 R3 Q1 Q2 Q3 A B C X Y Z. apply child_iff in G. cbn [read_doc fdCoord]. unfold coord.
  rewrite (setting_ok root g "CoordAxis"%string _ _ 0 ltac:(discriminate) G R1 A), (setting_ok root g "UpAxis"%string _ _ 1 ltac:(discriminate) G R2 B), (setting_ok root g "FrontAxis"%string _ _ 2 ltac:(discriminate) G R3 C).
  rewrite (sign_ok root g "CoordAxisSign"%string _ _ ltac:(discriminate) G Q1 X), (sign_ok root g "UpAxisSign"%string _ _ ltac:(discriminate) G Q2 Y), (sign_ok root g "FrontAxisSign"%string _ _ ltac:(discriminate) G Q3 Z). reflexivity.
Qed.
Theorem axes_default root : childless "GlobalSettings" root -> template root (byt "GlobalSettings") = None ->
  fdCoord (read_doc f32 f64 of_int local_of root) = coord_matrix 0 1 2 none none none.
Proof.
  intros G E. cbn [read_doc fdCoord]. unfold coord, setting, settings_row, sign, props, top. rewrite (childless_find _ _ G), E. reflexivity.
Qed.
End Numbers.
