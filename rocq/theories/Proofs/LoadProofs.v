(** Proofs about loading scenes without prefabs: C93. *)
From Coq Require Import String Ascii List ZArith Bool Lia Permutation.
From Verif.Model Require Import Vec UnityScene.
From Verif.Spec Require Import SceneFileSpec.
From Verif.Proofs Require Import ForestProofs.
Import ListNotations.
Local Open Scope string_scope.
Local Open Scope list_scope.
Local Open Scope Z_scope.

Section P.
Context {T : Type}.
Variables (zero : T) (of_int : Z -> T) (to_int : T -> Z).
Variable files : string -> option (list (Z * @udoc T)).
Variable order : list (sref * list addr) -> list (sref * list addr).
Hypothesis order_perm : forall l, Permutation (order l) l.
Notation load := (load zero of_int to_int files order).
Notation load_docs := (load_docs zero of_int to_int order).

Definition doc_elem (d : @udoc T) : elem T := match d with DGo (Some g) => EGo g | DTr (Some t) => ETr t | DRend (Some r) => ERend r | _ => EOther end.
Definition is_go (d : @udoc T) : bool := match d with DGo (Some _) => true | _ => false end.
Definition go_ids (ds : list (Z * @udoc T)) : list addr := map (fun x => ([], fst x)) (filter (fun x => is_go (snd x)) ds).

Lemma load_simple rec guid ds : forall st, (forall f d, In (f, d) ds -> simple_doc d) ->
  load_docs rec guid ds st = Loaded (finish order guid (mkLS (rev (map (fun x => (fst x, doc_elem (snd x))) ds) ++ lsElems st) (lsObjs st ++ go_ids ds) (lsAdded st))).
Proof.
  induction ds as [|[f d] ds IH]; intros st H; cbn [UnityScene.load_docs].
  - cbn [map rev app]. unfold go_ids. cbn [filter map]. rewrite app_nil_r. now destruct st.
  - assert (H0 := H f d (or_introl eq_refl)). assert (H1 : forall f d, In (f, d) ds -> simple_doc d) by (intros f' d' I; apply (H f' d'); now right).
    destruct d as [[g|]|[t|]|[r|]|[i|]|]; try destruct H0; rewrite IH by exact H1; unfold put; cbn [lsElems lsObjs lsAdded map rev fst snd doc_elem]; rewrite <- app_assoc; cbn [app];
    unfold go_ids; cbn [filter is_go snd map fst]; rewrite <- ?app_assoc; reflexivity.
Qed.
Lemma order_nil : order [] = [].
Proof. apply Permutation_nil. symmetry. apply order_perm. Qed.
Lemma find_in (l : list (Z * elem T)) k e : NoDup (map fst l) -> (find_elem l k = Some e <-> In (k, e) l).
Proof.
  induction l as [|[i x] l IH]; intro N; cbn [find_elem]; [split; [discriminate|intros []]|]. cbn [map fst] in N. inversion N as [|? ? N1 N2]; subst. destruct (i =? k) eqn:E.
  - apply Z.eqb_eq in E. subst i. split; [intro H; injection H as ->; now left|]. intros [H|H]; [now injection H as ->|]. destruct N1. now apply (in_map fst) in H.
  - rewrite IH by exact N2. split; [now right|]. intros [H|H]; [injection H as -> ->; rewrite Z.eqb_refl in E; discriminate|exact H].
Qed.

Section Tree.
Variables (ds : list (Z * @udoc T)) (depth : Z -> nat) (guid : string).
Hypothesis TF : tree_file ds depth.
Definition the_elems : list (Z * elem T) := rev (map (fun x => (fst x, doc_elem (snd x))) ds) ++ [].
Definition s0 : scene T := mkScene guid the_elems [] [].
Definition the_scene : scene T := mkScene guid the_elems (filter (is_root s0) (go_ids ds)) [].

Lemma elem_ids : NoDup (map fst the_elems).
Proof.
  unfold the_elems. rewrite app_nil_r, map_rev, map_map. cbn [fst]. apply NoDup_rev. exact (tf_ids _ _ TF).
Qed.
Lemma elem_in k e : In (k, e) the_elems <-> exists d, In (k, d) ds /\ doc_elem d = e.
Proof.
  unfold the_elems. rewrite app_nil_r, <- in_rev, in_map_iff. split.
  - intros ([f d] & E & I). cbn [fst snd] in E. injection E as -> <-. now exists d.
  - intros (d & I & <-). now exists (k, d).
Qed.
Lemma find_go k g : find_elem the_elems k = Some (EGo g) <-> In (k, DGo (Some g)) ds.
Proof.
  rewrite (find_in _ _ _ elem_ids), elem_in. split; [|intro I; now exists (DGo (Some g))]. intros (d & I & E). destruct d as [[x|]|[x|]|[x|]|[x|]|]; try discriminate. now injection E as ->.
Qed.
Lemma find_tr k t : find_elem the_elems k = Some (ETr t) <-> In (k, DTr (Some t)) ds.
Proof.
  rewrite (find_in _ _ _ elem_ids), elem_in. split; [|intro I; now exists (DTr (Some t))]. intros (d & I & E). destruct d as [[x|]|[x|]|[x|]|[x|]|]; try discriminate. now injection E as ->.
Qed.
Lemma nonzero k d : In (k, d) ds -> k <> 0.
Proof. intros I ->. apply (tf_nonzero _ _ TF). now apply (in_map fst) in I. Qed.

(** Any scene with these elements. *)
Section Any.
Variable s : scene T.
Hypothesis S1 : scElems s = the_elems.
Lemma get_local r inst : local r -> get_element2 s [] (Some r) inst = if srFile r =? 0 then None else match find_elem the_elems (srFile r) with Some _ => Some ([], srFile r) | None => None end.
Proof. intro L. unfold get_element2. cbn [sub valid]. unfold local in L. rewrite L, S1. cbn [String.eqb negb andb]. destruct (srFile r =? 0); reflexivity. Qed.
Lemma tr_at_s k : tr_at s ([], k) = match find_elem the_elems k with Some (ETr t) => Some t | _ => None end.
Proof. unfold tr_at, elem_at. cbn [fst snd sub]. now rewrite S1. Qed.
Lemma go_at_s k : go_at s ([], k) = match find_elem the_elems k with Some (EGo t) => Some t | _ => None end.
Proof. unfold go_at, elem_at. cbn [fst snd sub]. now rewrite S1. Qed.
Lemma object_transform_s f g : In (f, DGo (Some g)) ds -> exists k t, object_transform s ([], f) = Some ([], k) /\ In (k, DTr (Some t)) ds /\ srFile (utGo t) = f /\ In k (map srFile (ugComps g)).
Proof.
  intro I. destruct (tf_go _ _ TF f g I) as (L & _ & k & t & K & G & C & U). exists k, t. split; [|auto].
  unfold object_transform. rewrite go_at_s, (proj2 (find_go f g) I). cbn [fst].
  assert (X : forall cs, Forall local cs -> In k (map srFile cs) -> (forall k' t', In (k', DTr (Some t')) ds -> In k' (map srFile cs) -> k' = k) -> first_transform s [] (ugPrefab g) cs = Some ([], k)).
  { induction cs as [|c cs IH]; intros Lc Ic Uc; [destruct Ic|]. inversion Lc as [|? ? L1 L2]; subst. cbn [first_transform].
    assert (Rest : In k (map srFile cs) -> first_transform s [] (ugPrefab g) cs = Some ([], k)) by (intro J; apply IH; [exact L2|exact J|intros k' t' A B; apply (Uc k' t' A); now right]).
    assert (Here : forall t', In (srFile c, DTr (Some t')) ds -> srFile c = k) by (intros t' A; apply (Uc (srFile c) t' A); now left).
    rewrite (get_local c _ L1). destruct Ic as [Ic|Ic].
    - rewrite Ic. assert (Z0 := nonzero k _ K). apply Z.eqb_neq in Z0. rewrite Z0. rewrite (proj2 (find_tr k t) K). rewrite tr_at_s, (proj2 (find_tr k t) K). reflexivity.
    - destruct (srFile c =? 0) eqn:Z0; [now apply Rest|]. destruct (find_elem the_elems (srFile c)) as [e|] eqn:E; [|now apply Rest]. rewrite tr_at_s, E.
      destruct e as [x|x|x|x|]; try now apply Rest. apply find_tr in E. now rewrite (Here x E). }
  apply X; auto.
Qed.
Lemma transform_object_s k t : In (k, DTr (Some t)) ds -> transform_object s ([], k) = Some ([], srFile (utGo t)).
Proof.
  intro I. destruct (tf_tr _ _ TF k t I) as (L & _ & _ & g & G & _). unfold transform_object. rewrite tr_at_s, (proj2 (find_tr k t) I). cbn [fst]. rewrite (get_local _ _ L).
  assert (Z0 := nonzero _ _ G). apply Z.eqb_neq in Z0. rewrite Z0, (proj2 (find_go _ g) G). now rewrite go_at_s, (proj2 (find_go _ g) G).
Qed.
Lemma owner_transform k t : In (k, DTr (Some t)) ds -> object_transform s ([], srFile (utGo t)) = Some ([], k).
Proof.
  intro I. destruct (tf_tr _ _ TF k t I) as (_ & _ & _ & g & G & C). destruct (object_transform_s _ g G) as (k' & t' & E & I' & G' & C'). rewrite E.
  destruct (tf_go _ _ TF _ g G) as (_ & _ & k2 & t2 & _ & _ & _ & U). now rewrite (U k' t' I' C'), (U k t I C).
Qed.
Lemma get_transform_s r inst : local r -> forall t, In (srFile r, DTr (Some t)) ds -> get_transform s [] (Some r) inst = Some ([], srFile r).
Proof.
  intros L t I. unfold get_transform. rewrite (get_local _ _ L). assert (Z0 := nonzero _ _ I). apply Z.eqb_neq in Z0. rewrite Z0, (proj2 (find_tr _ t) I), tr_at_s, (proj2 (find_tr _ t) I).
  destruct (tf_tr _ _ TF _ t I) as (_ & _ & _ & g & G & _). assert (Z1 := nonzero _ _ G). apply Z.eqb_neq in Z1. cbn [valid]. now rewrite Z1.
Qed.
End Any.

(** The loaded scene. *)
Lemma load_tree n : files guid = Some ds -> load (S n) guid = Loaded the_scene.
Proof.
  intro F. cbn [UnityScene.load]. rewrite F. rewrite load_simple by (exact (tf_simple _ _ TF)). cbn [lsElems lsObjs lsAdded app]. unfold finish. cbn [lsElems lsObjs lsAdded]. now rewrite order_nil.
Qed.
Notation s := the_scene.
Definition kids (a : addr) : list addr :=
  match object_transform s a with
  | Some ta => flat_map (fun c => match transform_object s c with Some o => [o] | None => [] end) (get_children s ta)
  | None => []
  end.
Lemma visits_tree n : forall d a, visits s n d a = tree kids n d a.
Proof.
  induction n as [|n IH]; intros d a; cbn [visits tree]; [reflexivity|]. f_equal. unfold kids. destruct (object_transform s a) as [ta|]; [|reflexivity].
  induction (get_children s ta) as [|c l IHl]; [reflexivity|]. cbn [flat_map]. rewrite IHl, flat_map_app. f_equal. destruct (transform_object s c); [|reflexivity]. cbn [flat_map]. now rewrite app_nil_r, IH.
Qed.
(** Objects and their depth. *)
Definition node (a : addr) : Prop := fst a = [] /\ exists g, In (snd a, DGo (Some g)) ds.
Definition dep (a : addr) : nat := match object_transform s a with Some ta => depth (snd ta) | None => O end.

Lemma in_same k d d' : In (k, d) ds -> In (k, d') ds -> d = d'.
Proof.
  intros I J. assert (N := tf_ids _ _ TF). revert I J N. clear. induction ds as [|[f x] l IH]; intros I J N; [destruct I|]. cbn [map fst] in N. inversion N as [|? ? N1 N2]; subst.
  destruct I as [I|I], J as [J|J]; [congruence| | |now apply IH].
  - injection I as -> ->. destruct N1. exact (in_map fst _ _ J).
  - injection J as -> ->. destruct N1. exact (in_map fst _ _ I).
Qed.
Lemma children_s k t : In (k, DTr (Some t)) ds -> get_children s ([], k) = flat_map (fun c => match c with Some r => [([], srFile r)] | None => [] end) (utChildren t).
Proof.
  intro I. unfold get_children, listed_children. rewrite (tr_at_s s eq_refl), (proj2 (find_tr k t) I). cbn [fst snd added_to scAdded filter map]. rewrite !app_nil_r.
  assert (K := nonzero _ _ I). destruct (tf_tr _ _ TF k t I) as (_ & L & _ & _).
  assert (X : forall l, (forall c, In c l -> In c (utChildren t)) -> flat_map (fun c => match get_transform s [] c (utPrefab t) with Some b => [b] | None => [] end) l =
              flat_map (fun c => match c with Some r => [([], srFile r)] | None => [] end) l).
  { induction l as [|c l IH]; intro H; [reflexivity|]. cbn [flat_map]. rewrite IH by (intros x X; apply H; now right). f_equal. destruct c as [r|]; [|reflexivity].
    assert (J := H _ (or_introl eq_refl)). destruct (proj1 (tf_link _ _ TF k (srFile r) K)) as (t' & T' & _); [now exists t, r|]. now rewrite (get_transform_s s eq_refl r _ (L r J) t' T'). }
  now apply X.
Qed.
Lemma kids_s f g : In (f, DGo (Some g)) ds -> exists k t, In (k, DTr (Some t)) ds /\ srFile (utGo t) = f /\ object_transform s ([], f) = Some ([], k) /\
  forall a, In a (kids ([], f)) <-> exists c t', In (c, DTr (Some t')) ds /\ srFile (utFather t') = k /\ a = ([], srFile (utGo t')).
Proof.
  intro I. destruct (object_transform_s s eq_refl f g I) as (k & t & E & K & G & C). exists k, t. split; [exact K|]. split; [exact G|]. split; [exact E|]. intro a. unfold kids. rewrite E, (children_s k t K), in_flat_map.
  assert (K0 := nonzero _ _ K). split.
  - intros (b & B & A). apply in_flat_map in B. destruct B as ([r|] & R & B); [|destruct B]. destruct B as [<-|[]].
    destruct (proj1 (tf_link _ _ TF k (srFile r) K0)) as (t' & T' & F'); [now exists t, r|]. rewrite (transform_object_s s eq_refl _ t' T') in A. destruct A as [<-|[]].
    exists (srFile r), t'. auto.
  - intros (c & t' & T' & F' & ->). destruct (proj2 (tf_link _ _ TF k c K0)) as (t2 & r & K2 & R & <-); [now exists t'|].
    assert (DTr (Some t2) = DTr (Some t)) as X by (apply (in_same k); assumption). injection X as ->. exists ([], srFile r). split.
    + apply in_flat_map. exists (Some r). split; [exact R|now left].
    + rewrite (transform_object_s s eq_refl _ t' T'). now left.
Qed.
Lemma owner_inj c t c' t' : In (c, DTr (Some t)) ds -> In (c', DTr (Some t')) ds -> srFile (utGo t) = srFile (utGo t') -> c = c'.
Proof. intros I I' E. assert (A := owner_transform s eq_refl c t I). assert (B := owner_transform s eq_refl c' t' I'). rewrite E in A. congruence. Qed.
Lemma f_once x : node x -> NoDup (kids x).
Proof.
  intros [P (g & I)]. destruct x as [p f]. cbn [fst snd] in *. subst p. destruct (object_transform_s s eq_refl f g I) as (k & t & E & K & G & C).
  unfold kids. rewrite E, (children_s k t K). assert (K0 := nonzero _ _ K). destruct (tf_tr _ _ TF k t K) as (_ & L & N & _).
  assert (X : forall l, (forall c, In c l -> In c (utChildren t)) -> NoDup (map (option_map srFile) l) ->
     NoDup (flat_map (fun c => match transform_object s c with Some o => [o] | None => [] end) (flat_map (fun c => match c with Some r => [([], srFile r)] | None => [] end) l))).
  { induction l as [|c l IH]; intros H Nl; [constructor|]. cbn [map] in Nl. inversion Nl as [|? ? N1 N2]; subst. assert (IHl := IH (fun x X => H x (or_intror X)) N2). destruct c as [r|]; [|exact IHl].
    cbn [flat_map app]. assert (J := H _ (or_introl eq_refl)). destruct (proj1 (tf_link _ _ TF k (srFile r) K0)) as (t' & T' & F'); [now exists t, r|].
    rewrite (transform_object_s s eq_refl _ t' T'). cbn [app]. constructor; [|exact IHl]. intro Q. apply in_flat_map in Q. destruct Q as (b & B & Q). apply in_flat_map in B.
    destruct B as ([r2|] & R2 & B); [|destruct B]. destruct B as [<-|[]]. assert (J2 := H _ (or_intror R2)).
    destruct (proj1 (tf_link _ _ TF k (srFile r2) K0)) as (t2 & T2 & F2); [now exists t, r2|]. rewrite (transform_object_s s eq_refl _ t2 T2) in Q. destruct Q as [Q|[]]. injection Q as Q.
    assert (Y := owner_inj _ _ _ _ T2 T' Q). destruct N1. apply in_map_iff. exists (Some r2). split; [cbn; now rewrite Y|exact R2]. }
  now apply X.
Qed.
Lemma dep_owner c t : In (c, DTr (Some t)) ds -> dep ([], srFile (utGo t)) = depth c.
Proof. intro I. unfold dep. now rewrite (owner_transform s eq_refl c t I). Qed.
Lemma f_in x c : node x -> In c (kids x) -> node c /\ dep c = S (dep x).
Proof.
  intros [P (g & I)] J. destruct x as [p f]. cbn [fst snd] in *. subst p. destruct (kids_s f g I) as (k & t & K & G & E & H). apply H in J. destruct J as (c' & t' & T' & F' & ->). split.
  - split; [reflexivity|]. cbn [snd]. destruct (tf_tr _ _ TF c' t' T') as (_ & _ & _ & g' & G' & _). now exists g'.
  - rewrite (dep_owner c' t' T'). rewrite (tf_depth _ _ TF c' t' T'). unfold dep. rewrite E. cbn [snd]. rewrite F'. assert (K0 := nonzero _ _ K). apply Z.eqb_neq in K0. now rewrite K0.
Qed.
Lemma f_one x y c : node x -> node y -> In c (kids x) -> In c (kids y) -> x = y.
Proof.
  intros [P (g & I)] [P' (g' & I')] J J'. destruct x as [p f], y as [p' f']. cbn [fst snd] in *. subst p p'.
  destruct (kids_s f g I) as (k & t & K & G & E & H). destruct (kids_s f' g' I') as (k' & t' & K' & G' & E' & H'). apply H in J. apply H' in J'.
  destruct J as (c1 & t1 & T1 & F1 & ->), J' as (c2 & t2 & T2 & F2 & Q). injection Q as Q. assert (c1 = c2) by (apply (owner_inj _ _ _ _ T1 T2 Q)). subst c2.
  assert (DTr (Some t1) = DTr (Some t2)) as X by (exact (in_same c1 _ _ T1 T2)). injection X as <-.
  assert (Hk : k' = k) by congruence. rewrite Hk in K'. assert (DTr (Some t) = DTr (Some t')) as Y by (exact (in_same k _ _ K K')). injection Y as <-. congruence.
Qed.
Lemma root_s f g : In (f, DGo (Some g)) ds -> is_root s0 ([], f) = (Nat.eqb (dep ([], f)) 0).
Proof.
  intro I. unfold is_root. destruct (object_transform_s s0 eq_refl f g I) as (k & t & E & K & G & C). destruct (object_transform_s s eq_refl f g I) as (k' & t' & E' & K' & G' & C').
  assert (k' = k). { destruct (tf_go _ _ TF f g I) as (_ & _ & k2 & t2 & _ & _ & _ & U). now rewrite (U k t K C), (U k' t' K' C'). } subst k'.
  rewrite E, (go_at_s s0 eq_refl), (proj2 (find_go f g) I), (tr_at_s s0 eq_refl), (proj2 (find_tr k t) K). unfold dep. rewrite E'. cbn [snd]. rewrite (tf_depth _ _ TF k t K).
  destruct (tf_go _ _ TF f g I) as (_ & V & _). rewrite V. cbn [valid]. destruct (srFile (utFather t) =? 0); reflexivity.
Qed.
Lemma go_ids_in a : In a (go_ids ds) <-> node a.
Proof.
  unfold go_ids, node. rewrite in_map_iff. split.
  - intros ([f d] & <- & I). apply filter_In in I. destruct I as [I G]. split; [reflexivity|]. cbn [fst snd] in *. destruct d as [[g|]|?|?|?|]; try discriminate. now exists g.
  - intros [P (g & I)]. destruct a as [p f]. cbn [fst snd] in *. subst p. exists (f, DGo (Some g)). split; [reflexivity|]. apply filter_In. now split.
Qed.
Lemma f_roots x : In x (scRoots s) <-> node x /\ dep x = 0%nat.
Proof.
  cbn [scRoots the_scene]. unfold the_scene. cbn [scRoots]. rewrite filter_In, go_ids_in. split; intros [A B]; split; try exact A; destruct A as [P (g & I)]; destruct x as [p f]; cbn [fst snd] in *; subst p.
  - rewrite (root_s f g I) in B. now apply Nat.eqb_eq in B.
  - rewrite (root_s f g I). now apply Nat.eqb_eq.
Qed.
Lemma f_roots_once : NoDup (scRoots s).
Proof.
  unfold the_scene. cbn [scRoots]. apply NoDup_filter. unfold go_ids. assert (N := tf_ids _ _ TF). clear -N. induction ds as [|[f d] l IH]; [constructor|]. cbn [map fst] in N. inversion N as [|? ? N1 N2]; subst.
  cbn [filter snd]. destruct (is_go d); [|now apply IH]. cbn [map fst]. constructor; [|now apply IH]. intro I. apply in_map_iff in I. destruct I as ([f' d'] & E & I). injection E as ->. apply filter_In in I.
  destruct N1. destruct I as [I _]. now apply (in_map fst) in I.
Qed.
Lemma f_parent x : node x -> dep x <> 0%nat -> exists y, node y /\ In x (kids y).
Proof.
  intros [P (g & I)] D. destruct x as [p f]. cbn [fst snd] in *. subst p. destruct (object_transform_s s eq_refl f g I) as (k & t & E & K & G & C). unfold dep in D. rewrite E in D. cbn [snd] in D.
  rewrite (tf_depth _ _ TF k t K) in D. destruct (srFile (utFather t) =? 0) eqn:Z0; [congruence|]. apply Z.eqb_neq in Z0.
  destruct (proj2 (tf_link _ _ TF (srFile (utFather t)) k Z0)) as (t2 & r & K2 & R & _); [now exists t|]. destruct (tf_tr _ _ TF _ t2 K2) as (_ & _ & _ & g2 & G2 & C2).
  exists ([], srFile (utGo t2)). split; [split; [reflexivity|now exists g2]|]. destruct (kids_s _ g2 G2) as (k3 & t3 & K3 & G3 & E3 & H). apply H. exists k, t. split; [exact K|]. split; [|now rewrite G].
  rewrite (owner_transform s eq_refl _ t2 K2) in E3. now injection E3.
Qed.
Lemma depth_bound : exists m, forall x, node x -> (dep x < m)%nat.
Proof.
  exists (S (list_max (map dep (go_ids ds)))). intros x X. apply go_ids_in in X. apply (in_map dep) in X. assert (L := proj1 (list_max_le (map dep (go_ids ds)) (list_max (map dep (go_ids ds)))) (le_n _)).
  rewrite Forall_forall in L. specialize (L _ X). lia.
Qed.
End Tree.

(** Every object of the file is visited once, at its depth. *)
Lemma tree_visited ds depth guid n : tree_file ds depth -> files guid = Some ds -> exists s m, load (S n) guid = Loaded s /\ forall fuel, (m <= fuel)%nat ->
  NoDup (map fst (visits_all s fuel)) /\
  forall a d, In (a, d) (visits_all s fuel) <-> exists f k t, a = ([], f) /\ In (k, DTr (Some t)) ds /\ srFile (utGo t) = f /\ d = depth k.
Proof.
  intros TF F. destruct (depth_bound ds depth guid) as [m B]. exists (the_scene ds guid), m. split; [now apply (load_tree ds depth)|]. intros fuel L. unfold visits_all.
  assert (X : flat_map (visits (the_scene ds guid) fuel 0) (scRoots (the_scene ds guid)) = flat_map (tree (kids ds guid) fuel 0) (scRoots (the_scene ds guid))).
  { induction (scRoots (the_scene ds guid)) as [|r l IH]; [reflexivity|]. cbn [flat_map]. now rewrite IH, visits_tree. }
  rewrite X. split.
  - apply (forest_once (node ds) (kids ds guid) (dep ds depth guid)); [apply (f_once ds depth guid TF)|apply (f_in ds depth guid TF)|apply (f_one ds depth guid TF)|apply (f_roots_once ds depth guid TF)|apply (f_roots ds depth guid TF)].
  - intros a d. rewrite (forest_all (node ds) (kids ds guid) (dep ds depth guid) (f_in ds depth guid TF) _ (f_roots ds depth guid TF) (f_parent ds depth guid TF) fuel a d) by (intros x Nx; specialize (B x Nx); lia).
    split.
    + intros [[P (g & I)] ->]. destruct a as [p f]. cbn [fst snd] in *. subst p. destruct (object_transform_s ds depth TF (the_scene ds guid) eq_refl f g I) as (k & t & E & K & G & C).
      exists f, k, t. repeat split; auto. unfold dep. now rewrite E.
    + intros (f & k & t & -> & K & G & ->). destruct (tf_tr _ _ TF k t K) as (_ & _ & _ & g & G' & C). rewrite <- G. split; [split; [reflexivity|now exists g]|].
      symmetry. now apply (dep_owner ds depth guid TF).
Qed.

Lemma roots_flat (s1 : scene T) (q : Z -> bool) (l : list (Z * @udoc T)) : (forall f g, In (f, DGo (Some g)) l -> is_root s1 ([], f) = q f) ->
  filter (is_root s1) (go_ids l) = flat_map (fun x => match snd x with DGo (Some _) => if q (fst x) then [([], fst x)] else [] | _ => [] end) l.
Proof.
  unfold go_ids. induction l as [|[f d] l IH]; intro X1; [reflexivity|]. cbn [filter snd flat_map fst].
  assert (IH' := IH (fun f g I => X1 f g (or_intror I))).
  destruct d as [[g|]|?|?|?|]; cbn [is_go app]; try exact IH'. cbn [map filter fst]. rewrite (X1 f g (or_introl eq_refl)), IH'. destruct (q f); reflexivity.
Qed.
(** What the loaded scene says of the documents of the file. *)
Lemma tree_loaded ds depth guid n : tree_file ds depth -> files guid = Some ds -> exists s, load (S n) guid = Loaded s /\
  scRoots s = flat_map (fun x => match snd x with
                                 | DGo (Some _) => if existsb (fun y => match snd y with DTr (Some t) => (srFile (utGo t) =? fst x) && (srFile (utFather t) =? 0) | _ => false end) ds then [([], fst x)] else []
                                 | _ => [] end) ds /\
  (forall k t, In (k, DTr (Some t)) ds ->
     tr_at s ([], k) = Some t /\ transform_object s ([], k) = Some ([], srFile (utGo t)) /\ object_transform s ([], srFile (utGo t)) = Some ([], k) /\
     get_children s ([], k) = flat_map (fun c => match c with Some r => [([], srFile r)] | None => [] end) (utChildren t)) /\
  (forall f g, In (f, DGo (Some g)) ds -> go_at s ([], f) = Some g).
Proof.
  intros TF F. exists (the_scene ds guid). split; [now apply (load_tree ds depth)|]. split; [|split].
  - unfold the_scene at 1. cbn [scRoots]. unfold go_ids.
    assert (X : forall f g, In (f, DGo (Some g)) ds -> is_root (s0 ds guid) ([], f) = existsb (fun y => match snd y with DTr (Some t) => (srFile (utGo t) =? f) && (srFile (utFather t) =? 0) | _ => false end) ds).
    { intros f g I. rewrite (root_s ds depth guid TF f g I). destruct (object_transform_s ds depth TF (the_scene ds guid) eq_refl f g I) as (k & t & E & K & G & C).
      unfold dep. rewrite E. cbn [snd]. rewrite (tf_depth _ _ TF k t K). destruct (srFile (utFather t) =? 0) eqn:Z0.
      - symmetry. cbn [Nat.eqb]. apply existsb_exists. exists (k, DTr (Some t)). split; [exact K|]. cbn [snd]. now rewrite G, Z.eqb_refl, Z0.
      - cbn [Nat.eqb]. symmetry. apply not_true_is_false. intro Y. apply existsb_exists in Y. destruct Y as ([k' d'] & I' & Y). cbn [snd] in Y. destruct d' as [?|[t'|]|?|?|]; try discriminate.
        apply andb_true_iff in Y. destruct Y as [Y1 Y2]. apply Z.eqb_eq in Y1. assert (k' = k) by (apply (owner_inj ds depth guid TF k' t' k t I' K); congruence). subst k'.
        assert (DTr (Some t') = DTr (Some t)) as Q by (exact (in_same ds depth TF k _ _ I' K)). injection Q as ->. congruence. }
    exact (roots_flat (s0 ds guid) (fun f => existsb (fun y => match snd y with DTr (Some t) => (srFile (utGo t) =? f) && (srFile (utFather t) =? 0) | _ => false end) ds) ds X).
  - intros k t K. split; [|split; [|split]].
    + rewrite (tr_at_s ds (the_scene ds guid) eq_refl). now rewrite (proj2 (find_tr ds depth TF k t) K).
    + now apply (transform_object_s ds depth TF (the_scene ds guid) eq_refl).
    + now apply (owner_transform ds depth TF (the_scene ds guid) eq_refl).
    + now apply (children_s ds depth guid TF).
  - intros f g I. rewrite (go_at_s ds (the_scene ds guid) eq_refl). now rewrite (proj2 (find_go ds depth TF f g) I).
Qed.
End P.
