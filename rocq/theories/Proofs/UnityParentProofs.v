(** Parents of transforms in a loaded scene. *)
From Coq Require Import String List ZArith Reals Bool Lia Permutation.
From Verif.Model Require Import Num NumR Vec Matrix Unity UnityScene UnityParent.
From Verif.Spec Require Import GeomSpec UnitySpec PrefabSpec UnityParentSpec.
From Verif.Proofs Require Import MatrixLemmas UnityProofs PrefabProofs.
Import ListNotations.
Local Open Scope list_scope.
Local Open Scope Z_scope.

Section S.
Context {T : Type} {N : Num T}.
Implicit Types (s : scene T) (a b : addr).

Lemma element_own s p r i : valid i = false \/ srGuid r = ""%string -> get_element2 s p (Some r) i =
  if srFile r =? 0 then None else match elem_at s (p, srFile r) with Some _ => Some (p, srFile r) | None => None end.
Proof.
  intros H. unfold get_element2, elem_at. cbn [fst snd valid]. destruct (sub s p) as [s'|]; [|destruct (srFile r =? 0); reflexivity].
  rewrite negb_involutive. destruct (srFile r =? 0); [reflexivity|].
  replace (negb (String.eqb (srGuid r) "") && negb (String.eqb (srGuid r) (scGuid s')) && valid i) with false; [reflexivity|].
  destruct H as [-> | ->]; [|reflexivity]. now rewrite andb_false_r.
Qed.
Lemma tr_elem s a t : tr_at s a = Some t -> elem_at s a = Some (ETr t).
Proof. unfold tr_at. destruct (elem_at s a) as [[]|]; intros [=]; subst; reflexivity. Qed.

Lemma parent_iff s a b : get_parent s a = Some b <-> names_father s a b.
Proof.
  unfold get_parent, names_father. destruct (tr_at s a) as [t|]; [|split; [discriminate|intros (t & u & E & _); discriminate]].
  rewrite element_own by (left; reflexivity). split.
  - destruct (srFile (utFather t) =? 0) eqn:Z0; [discriminate|]. apply Z.eqb_neq in Z0. destruct (elem_at s _) as [e|] eqn:E; [|discriminate].
    destruct (tr_at s (fst a, srFile (utFather t))) as [u|] eqn:U; [|discriminate]. intros H. assert (b = (fst a, srFile (utFather t))) by congruence. subst b. exists t, u. auto.
  - intros (t' & u & E & U & F & G & Z0). injection E as <-. destruct b as [p k]. cbn [fst snd] in *. subst p k. apply Z.eqb_neq in Z0. rewrite Z0, (tr_elem _ _ _ U), U. reflexivity.
Qed.
Lemma parent_none s a : names_none s a -> get_parent s a = None.
Proof. intros (t & E & Z0). unfold get_parent. rewrite E, element_own by (left; reflexivity). rewrite Z0. reflexivity. Qed.

Lemma applied_snoc (l : list (mat4 T)) m x : applied l = Some m -> applied (l ++ [x]) = Some (mat_mul m x).
Proof. destruct l as [|y r]; [discriminate|]. cbn [applied app]. rewrite fold_left_app. cbn [fold_left]. congruence. Qed.
Lemma chain_world s a l : chain s a l -> forall fuel, (length l <= fuel)%nat -> exists m, scene_world fuel s a = Some m /\ applied (map local_matrix l) = Some m.
Proof.
  induction 1 as [a t E H|a b t l E H C IH]; intros fuel L.
  - destruct fuel as [|f]; [cbn in L; lia|]. cbn [scene_world]. rewrite E, (parent_none _ _ H). eexists. split; reflexivity.
  - rewrite app_length in L. cbn [length] in L. destruct fuel as [|f]; [lia|]. destruct (IH f) as (m & W & A); [lia|]. cbn [scene_world]. rewrite E, (proj2 (parent_iff s a b) H), W.
    eexists. split; [reflexivity|]. rewrite map_app. apply applied_snoc. exact A.
Qed.
Lemma listed_parent s a b : listed_below s a b -> get_parent s a = Some b /\ In a (get_children s b).
Proof.
  intros (t & u & k & Ta & Tb & F & Za & G & I & Fa & Zb). split.
  - apply parent_iff. exists t, u. repeat split; auto.
  - unfold get_children, listed_children. rewrite Tb. apply in_or_app. left. apply in_flat_map. eexists. split; [exact I|]. unfold get_transform. rewrite element_own by (right; reflexivity). cbn [srFile].
    apply Z.eqb_neq in Za. rewrite Za. replace (fst b, snd a) with a by (destruct a; cbn in *; subst; reflexivity). rewrite (tr_elem _ _ _ Ta), Ta. cbn [valid]. apply Z.eqb_neq in G. rewrite G. cbn. left. reflexivity.
Qed.

(** The root of an instance. *)
Lemma instance_parent (zero : T) of_int to_int files order n guid ds s ps id f k0 i src par :
  instance files (load zero of_int to_int files order) n guid ds s ps id f k0 i src par ->
  get_parent s ([id], k0) = if srFile par =? 0 then None else match tr_at s ([id], srFile par) with Some _ => Some ([id], srFile par) | None => None end.
Proof.
  intros H. destruct (root_transform_found zero of_int to_int files order _ _ _ _ _ _ _ _ _ _ _ H) as (K & t & E). apply tr_top in E.
  destruct (instance_numbers _ _ _ _ _ _ _ _ _ _ _ _ _ _ _ _ H k0 t K E) as (t' & E' & _ & F & _). rewrite Z.eqb_refl in F.
  unfold get_parent. rewrite E', F, element_own by (left; reflexivity). cbn [srFile fst]. destruct (srFile par =? 0); [reflexivity|].
  destruct (tr_at s ([id], srFile par)) as [u|] eqn:U; [rewrite (tr_elem _ _ _ U), U; reflexivity|]. destruct (elem_at s ([id], srFile par)); [rewrite U|]; reflexivity.
Qed.

(** Inside of an instance. *)
Lemma parent_in s s' id a : find_elem (scElems s) id = Some (EPrefab s') -> get_parent s (push id a) = option_map (push id) (get_parent s' a).
Proof.
  intros F. unfold get_parent. rewrite (tr_in s s' id F). destruct (tr_at s' a) as [t|]; [|reflexivity]. cbn [push fst]. rewrite (element_in s s' id F).
  destruct (get_element2 s' (fst a) (Some (utFather t)) None) as [b|]; [|reflexivity]. cbn [option_map]. rewrite (tr_in s s' id F). destruct (tr_at s' b); reflexivity.
Qed.
Lemma parent_same s s' a : matched s s' -> (forall t t', tr_at s a = Some t -> tr_at s' a = Some t' -> utFather t' = utFather t) -> get_parent s' a = get_parent s a.
Proof.
  intros M H. unfold get_parent. destruct (tr_matched s s' M a) as [[-> ->]|(t & t' & E & E' & _)]; [reflexivity|]. rewrite E, E', (H t t' E E'), (element_matched s s' M).
  destruct (get_element2 s (fst a) (Some (utFather t)) None) as [b|]; [|reflexivity]. destruct (tr_matched s s' M b) as [[-> ->]|(u & u' & -> & -> & _)]; reflexivity.
Qed.
Lemma instance_inside (zero : T) of_int to_int files order n guid ds s ps id f k0 i src par :
  instance files (load zero of_int to_int files order) n guid ds s ps id f k0 i src par -> forall a, snd a <> 0 -> a <> ([], k0) ->
  get_parent s (push id a) = option_map (push id) (get_parent ps a).
Proof.
  intros H a Z0 R. destruct (instance_elem zero of_int to_int files order _ _ _ _ _ _ _ _ _ _ _ H 1) as (ps' & F & _ & M); [discriminate|]. rewrite (parent_in s ps' id a F). f_equal. apply parent_same; [exact M|].
  intros t t' E E'. destruct a as [[|j p] k]; cbn [snd] in *.
  - destruct (instance_numbers _ _ _ _ _ _ _ _ _ _ _ _ _ _ _ _ H k t Z0 E) as (t2 & E2 & _ & Fa & _). replace (k =? k0) with false in Fa by (symmetry; apply Z.eqb_neq; congruence).
    change ([id], k) with (push id ([], k)) in E2. rewrite (tr_in s ps' id F) in E2. congruence.
  - unfold tr_at, elem_at in E, E'. cbn [fst snd] in E, E'. rewrite (sub_matched ps ps' M) in E'. congruence.
Qed.

Lemma component_head is s p i cs : component is s p i cs = hd_error (components is s p i cs).
Proof. induction cs as [|c r IH]; [reflexivity|]. cbn [component components]. destruct (get_element2 s p (Some c) i) as [a|]; [|exact IH]. destruct (has_type is s a); [reflexivity|exact IH]. Qed.
Lemma get_component_head is s a : get_component is s a = hd_error (get_components is s a).
Proof. unfold get_component, get_components. destruct (go_at s a); [apply component_head|reflexivity]. Qed.
Lemma components_flat is s p i cs : valid i = false -> components is s p i cs = map (fun r => (p, srFile r)) (filter (fun r => negb (srFile r =? 0) && has_type is s (p, srFile r)) cs).
Proof.
  intros V. induction cs as [|c r IH]; [reflexivity|]. cbn [components filter]. rewrite element_own by (left; exact V). destruct (srFile c =? 0); [exact IH|]. cbn [negb andb].
  unfold has_type in *. destruct (elem_at s (p, srFile c)) as [e|] eqn:E; [rewrite E; destruct (is e); [cbn; rewrite IH; reflexivity|exact IH]|exact IH].
Qed.
Lemma components_owned is s a : (forall g, go_at s a = Some g -> valid (ugPrefab g) = false) -> forall c, In c (get_components is s a) <-> owned is s a c.
Proof.
  intros V c. unfold get_components, owned. destruct (go_at s a) as [g|]; [|split; [intros []|intros (g & r & e & E & _); discriminate]]. rewrite components_flat by (apply V; reflexivity). rewrite in_map_iff. split.
  - intros (r & <- & I). apply filter_In in I as [I H]. apply andb_prop in H as [Z0 H]. unfold has_type in H. destruct (elem_at s _) as [e|] eqn:E; [|discriminate]. exists g, r, e.
    destruct (srFile r =? 0) eqn:Q; [discriminate|]. apply Z.eqb_neq in Q. auto 10.
  - intros (g' & r & e & E & I & Z0 & -> & X & Y). injection E as <-. exists r. split; [reflexivity|]. apply filter_In. split; [exact I|]. apply Z.eqb_neq in Z0. unfold has_type. rewrite Z0, X, Y. reflexivity.
Qed.
Lemma transform_component s a : object_transform s a = get_component (fun e => match e with ETr _ => true | _ => false end) s a.
Proof.
  unfold object_transform, get_component. destruct (go_at s a) as [g|]; [|reflexivity]. induction (ugComps g) as [|c r IH]; [reflexivity|]. cbn [first_transform component].
  destruct (get_element2 s (fst a) (Some c) (ugPrefab g)) as [x|]; [|exact IH]. unfold tr_at, has_type. destruct (elem_at s x) as [[]|]; auto.
Qed.
End S.
(** Over the reals. *)
Lemma local_affine (t : utrans R) : affine (local_matrix t).
Proof. apply get_matrix_affine. Qed.
Lemma local_point (t : utrans R) v : mat_apply (local_matrix t) (mirror v) = mirror (unity_point t v).
Proof. exact (get_matrix_mirror (mkTr (utPos t) (utRot t) (utScale t) None) v). Qed.
Lemma applied_points (l : list (utrans R)) : forall t m v, applied (map local_matrix (t :: l)) = Some m -> mat_apply m (mirror v) = mirror (unity_points (t :: l) v).
Proof.
  induction l as [|u l IH] using rev_ind; intros t m v H.
  - cbn [map applied fold_left] in H. assert (m = local_matrix t) by congruence. subst m. apply local_point.
  - change (t :: l ++ [u]) with ((t :: l) ++ [u]) in *. rewrite map_app in H. change (map local_matrix [u]) with [local_matrix u] in H.
    destruct (applied (map local_matrix (t :: l))) as [m0|] eqn:E; [|discriminate E]. rewrite (applied_snoc _ _ _ E) in H. assert (m = mat_mul m0 (local_matrix u)) by congruence. subst m.
    rewrite mat_apply_mul by apply local_affine. rewrite local_point, (IH t m0 _ E). unfold unity_points. rewrite fold_right_app. reflexivity.
Qed.
Lemma chain_points (s : scene R) a l : chain s a l -> forall fuel, (length l <= fuel)%nat -> exists m, scene_world fuel s a = Some m /\ forall v, mat_apply m (mirror v) = mirror (unity_points l v).
Proof.
  intros C fuel L. destruct (chain_world s a l C fuel L) as (m & W & A). exists m. split; [exact W|]. intros v. destruct l as [|t l]; [discriminate A|]. exact (applied_points l t m v A).
Qed.
