(** Proofs about prefab instances in scenes: C94. *)
From Coq Require Import String Ascii List ZArith Bool Lia Permutation.
From Verif.Model Require Import Vec Cli UnityProject UnityScene.
From Verif.Spec Require Import CliSpec SceneFileSpec PrefabSpec.
From Verif.Proofs Require Import CliProofs ModProofs.
Import ListNotations.
Local Open Scope string_scope.
Local Open Scope list_scope.
Local Open Scope Z_scope.

Section P.
Context {T : Type}.
Variables (zero : T) (of_int : Z -> T) (to_int : T -> Z).
Variable files : string -> option (list (Z * @udoc T)).
Variable order : list (sref * list addr) -> list (sref * list addr).
Hypothesis order_perm : forall l, Permutation (order l) l.
Notation load := (load zero of_int to_int files order).
Notation load_docs := (load_docs zero of_int to_int order).
Notation place_prefab := (place_prefab zero of_int to_int).
Notation modify := (modify zero of_int to_int).
Notation modify_all := (modify_all zero of_int to_int).

(** ** Addresses inside of an instance *)
Section Inside.
Variables (s ps : scene T) (id : Z).
Hypothesis I : find_elem (scElems s) id = Some (EPrefab ps).
Lemma sub_in p : sub s (id :: p) = sub ps p.
Proof. cbn [sub]. now rewrite I. Qed.
Lemma elem_in_instance a : elem_at s (push id a) = elem_at ps a.
Proof. unfold elem_at, push. cbn [fst snd]. now rewrite sub_in. Qed.
Lemma tr_in a : tr_at s (push id a) = tr_at ps a.
Proof. unfold tr_at. now rewrite elem_in_instance. Qed.
Lemma go_in a : go_at s (push id a) = go_at ps a.
Proof. unfold go_at. now rewrite elem_in_instance. Qed.
Lemma element_in p r inst : get_element2 s (id :: p) r inst = option_map (push id) (get_element2 ps p r inst).
Proof.
  unfold get_element2. rewrite sub_in. destruct r as [r|]; [|reflexivity]. destruct (sub ps p) as [s'|]; [|reflexivity]. destruct (negb (valid (Some r))); [reflexivity|].
  destruct (negb (String.eqb (srGuid r) "") && negb (String.eqb (srGuid r) (scGuid s')) && valid inst).
  - destruct inst as [i|]; [|reflexivity]. destruct (find_elem (scElems s') (srFile i)) as [[g|t|x|s''|]|]; try reflexivity. destruct (find_elem (scElems s'') (srFile r)); reflexivity.
  - destruct (find_elem (scElems s') (srFile r)); reflexivity.
Qed.
Lemma first_in p inst cs : first_transform s (id :: p) inst cs = option_map (push id) (first_transform ps p inst cs).
Proof.
  induction cs as [|c cs IH]; [reflexivity|]. cbn [first_transform]. rewrite element_in. destruct (get_element2 ps p (Some c) inst) as [a|]; cbn [option_map]; [|exact IH].
  rewrite tr_in. destruct (tr_at ps a); [reflexivity|exact IH].
Qed.
Lemma object_transform_in a : object_transform s (push id a) = option_map (push id) (object_transform ps a).
Proof. unfold object_transform. rewrite go_in. destruct (go_at ps a); [|reflexivity]. cbn [push fst]. apply first_in. Qed.
Lemma get_transform_in p r inst : get_transform s (id :: p) r inst = option_map (push id) (get_transform ps p r inst).
Proof.
  unfold get_transform. rewrite element_in. destruct (get_element2 ps p r inst) as [a|]; cbn [option_map]; [|reflexivity]. rewrite tr_in. destruct (tr_at ps a) as [t|]; [|reflexivity].
  destruct (negb (valid (Some (utGo t))) && valid (utCorr t)); [|reflexivity]. cbn [push fst]. rewrite element_in. destruct (get_element2 ps (fst a) (utCorr t) (utPrefab t)) as [b|]; cbn [option_map]; [|reflexivity].
  rewrite tr_in. destruct (tr_at ps b); reflexivity.
Qed.
Lemma transform_object_in a : transform_object s (push id a) = option_map (push id) (transform_object ps a).
Proof.
  unfold transform_object. rewrite tr_in. destruct (tr_at ps a) as [t|]; [|reflexivity]. cbn [push fst]. rewrite element_in. destruct (get_element2 ps (fst a) (Some (utGo t)) (utPrefab t)) as [b|]; cbn [option_map]; [|reflexivity].
  rewrite go_in. destruct (go_at ps b); reflexivity.
Qed.
Lemma listed_in a : listed_children s (push id a) = map (push id) (listed_children ps a).
Proof.
  unfold listed_children. rewrite tr_in. destruct (tr_at ps a) as [t|]; [|reflexivity]. cbn [push fst]. induction (utChildren t) as [|c l IH]; [reflexivity|]. cbn [flat_map]. rewrite map_app, <- IH. f_equal.
  rewrite get_transform_in. destruct (get_transform ps (fst a) c (utPrefab t)); reflexivity.
Qed.
Lemma added_in p f : added_to s (id :: p) f = map (push id) (added_to ps p f) ++ map snd (filter (fun e => addr_eqb (fst e) (id :: p, f)) (scAdded s)).
Proof. destruct p; cbn [added_to]; rewrite I; reflexivity. Qed.
Lemma children_in a : get_children s (push id a) = map (push id) (get_children ps a) ++ map snd (filter (fun e => addr_eqb (fst e) (push id a)) (scAdded s)).
Proof. unfold get_children. rewrite listed_in. cbn [push fst snd]. rewrite added_in, map_app, app_assoc. destruct a as [p f]. reflexivity. Qed.
End Inside.

(** ** Scenes that differ only in what was added *)
Definition alike (s s' : scene T) : Prop := scGuid s = scGuid s' /\ scElems s = scElems s' /\ scRoots s = scRoots s'.
Lemma alike_refl s : alike s s.
Proof. now repeat split. Qed.
Lemma alike_trans a b c : alike a b -> alike b c -> alike a c.
Proof. intros (A & B & C) (D & E & F). split; [congruence|split; congruence]. Qed.
Section Alike.
Variables (s s' : scene T).
Hypothesis A : scGuid s = scGuid s'.
Hypothesis B : scElems s = scElems s'.
Lemma elem_alike a : elem_at s a = elem_at s' a.
Proof. unfold elem_at. destruct a as [[|i p] f]; cbn [fst snd sub]; now rewrite B. Qed.
Lemma tr_alike a : tr_at s a = tr_at s' a.
Proof. unfold tr_at. now rewrite elem_alike. Qed.
Lemma go_alike a : go_at s a = go_at s' a.
Proof. unfold go_at. now rewrite elem_alike. Qed.
Lemma element_alike p r inst : get_element2 s p r inst = get_element2 s' p r inst.
Proof. unfold get_element2. destruct r as [r|]; [|reflexivity]. destruct p as [|i p]; cbn [sub]; rewrite B; [|reflexivity]. now rewrite A. Qed.
Lemma first_alike p inst cs : first_transform s p inst cs = first_transform s' p inst cs.
Proof. induction cs as [|c cs IH]; [reflexivity|]. cbn [first_transform]. rewrite element_alike. destruct (get_element2 s' p (Some c) inst); [|exact IH]. now rewrite tr_alike, IH. Qed.
Lemma object_transform_alike a : object_transform s a = object_transform s' a.
Proof. unfold object_transform. rewrite go_alike. destruct (go_at s' a); [apply first_alike|reflexivity]. Qed.
Lemma get_transform_alike p r inst : get_transform s p r inst = get_transform s' p r inst.
Proof.
  unfold get_transform. rewrite element_alike. destruct (get_element2 s' p r inst) as [a|]; [|reflexivity]. rewrite tr_alike. destruct (tr_at s' a) as [t|]; [|reflexivity].
  destruct (negb (valid (Some (utGo t))) && valid (utCorr t)); [|reflexivity]. rewrite element_alike. destruct (get_element2 s' (fst a) (utCorr t) (utPrefab t)); [|reflexivity]. now rewrite tr_alike.
Qed.
Lemma listed_alike a : listed_children s a = listed_children s' a.
Proof. unfold listed_children. rewrite tr_alike. destruct (tr_at s' a) as [t|]; [|reflexivity]. apply flat_map_ext. intro c. now rewrite get_transform_alike. Qed.
Lemma is_root_alike a : is_root s a = is_root s' a.
Proof. unfold is_root. rewrite object_transform_alike, go_alike. destruct (object_transform s' a) as [b|]; [|reflexivity]. now rewrite tr_alike. Qed.
End Alike.

Lemma addr_eqb_spec a b : addr_eqb a b = true <-> a = b.
Proof.
  unfold addr_eqb. destruct a as [p f], b as [q g]. cbn [fst snd]. destruct (list_eq_dec Z.eq_dec p q) as [->|N]; [rewrite Z.eqb_eq|]; (split; intro H; [congruence|]); [now injection H|congruence].
Qed.
(** ** Adding children *)
Lemma add_child_alike (s : scene T) p c : alike (add_child s p c) s.
Proof. unfold add_child. destruct (existsb (addr_eqb c) (get_children s p)); now repeat split. Qed.
Lemma children_grow (s s' : scene T) a : scGuid s = scGuid s' -> scElems s = scElems s' -> (exists l, scAdded s' = scAdded s ++ l) -> exists l, get_children s' a = get_children s a ++ l /\
  forall c, In c l <-> exists e, In e (skipn (length (scAdded s)) (scAdded s')) /\ fst e = a /\ snd e = c.
Proof.
  intros A B [l L]. exists (map snd (filter (fun e => addr_eqb (fst e) a) l)). split.
  - unfold get_children. rewrite (listed_alike s s' A B). rewrite <- app_assoc. f_equal. destruct a as [p f]. cbn [fst snd]. destruct p as [|i p]; cbn [added_to]; rewrite <- ?B, L, filter_app, map_app, ?app_assoc; reflexivity.
  - intro c. rewrite L, skipn_app, skipn_all, Nat.sub_diag. cbn [app skipn]. rewrite in_map_iff. split.
    + intros (e & E & F). apply filter_In in F. destruct F as [F1 F2]. apply addr_eqb_spec in F2. now exists e.
    + intros (e & E & F & <-). exists e. split; [reflexivity|]. apply filter_In. split; [exact E|]. now apply addr_eqb_spec.
Qed.
Lemma add_child_in (s : scene T) p c : In c (get_children (add_child s p c) p) /\ forall a x, In x (get_children s a) -> In x (get_children (add_child s p c) a).
Proof.
  unfold add_child. destruct (existsb (addr_eqb c) (get_children s p)) eqn:E.
  - apply existsb_exists in E. destruct E as (x & X & E). apply addr_eqb_spec in E. subst x. now split.
  - assert (G : forall a, exists l, get_children (mkScene (scGuid s) (scElems s) (scRoots s) (scAdded s ++ [(p, c)])) a = get_children s a ++ l /\
       forall x, In x l <-> exists e, In e (skipn (length (scAdded s)) (scAdded s ++ [(p, c)])) /\ fst e = a /\ snd e = x) by (intro a; apply children_grow; [reflexivity|reflexivity|now exists [(p, c)]]).
    split.
    + destruct (G p) as (l & -> & H). apply in_or_app. right. apply H. exists (p, c). rewrite skipn_app, skipn_all, Nat.sub_diag. cbn. auto.
    + intros a x X. destruct (G a) as (l & -> & _). apply in_or_app. now left.
Qed.
Lemma fold_children (s : scene T) p cs : let s' := fold_left (fun s c => add_child s p c) cs s in alike s' s /\ (forall c, In c cs -> In c (get_children s' p)) /\ forall a x, In x (get_children s a) -> In x (get_children s' a).
Proof.
  revert s. induction cs as [|c cs IH]; intro s; cbn [fold_left]; [split; [apply alike_refl|]; split; [intros c []|auto]|].
  destruct (IH (add_child s p c)) as (H1 & H2 & H3). destruct (add_child_in s p c) as [G1 G2]. split; [exact (alike_trans _ _ _ H1 (add_child_alike s p c))|]. split.
  - intros x [<-|X]; [now apply H3|now apply H2].
  - intros a x X. apply H3, G2, X.
Qed.
Lemma add_children_facts (s : scene T) kc : let s' := add_children s kc in alike s' s /\ (forall pa c, get_transform s [] (Some (fst kc)) None = Some pa -> In c (snd kc) -> In c (get_children s' pa)) /\
  forall a x, In x (get_children s a) -> In x (get_children s' a).
Proof.
  unfold add_children. destruct (get_transform s [] (Some (fst kc)) None) as [pa|]; cbn zeta.
  - destruct (fold_children s pa (snd kc)) as (H1 & H2 & H3). split; [exact H1|]. split; [|exact H3]. intros pb c E. injection E as <-. apply H2.
  - split; [apply alike_refl|]. split; [discriminate|auto].
Qed.
Lemma finish_facts l : forall s : scene T, let s' := fold_left add_children l s in alike s' s /\ (forall k cs pa c, In (k, cs) l -> get_transform s [] (Some k) None = Some pa -> In c cs -> In c (get_children s' pa)) /\
  forall a x, In x (get_children s a) -> In x (get_children s' a).
Proof.
  induction l as [|kc l IH]; intro s; cbn [fold_left]; [split; [apply alike_refl|]; split; [intros k cs pa c []|auto]|].
  destruct (IH (add_children s kc)) as (H1 & H2 & H3). destruct (add_children_facts s kc) as (G1 & G2 & G3). split; [exact (alike_trans _ _ _ H1 G1)|]. split.
  - intros k cs pa c [E|E] P C; [subst kc; apply H3; now apply G2|]. apply (H2 k cs pa c E); [|exact C]. destruct G1 as (A & B & _). now rewrite (get_transform_alike _ _ A B).
  - intros a x X. apply H3, G3, X.
Qed.
(** No child twice. *)
Lemma add_child_nodup (s : scene T) p c a : NoDup (get_children s a) -> NoDup (get_children (add_child s p c) a).
Proof.
  intro N. unfold add_child. destruct (existsb (addr_eqb c) (get_children s p)) eqn:E; [exact N|].
  assert (X : get_children (mkScene (scGuid s) (scElems s) (scRoots s) (scAdded s ++ [(p, c)])) a = get_children s a ++ (if addr_eqb p a then [c] else [])).
  { unfold get_children. rewrite (listed_alike _ s) by reflexivity. rewrite <- app_assoc. f_equal. destruct a as [q f]. cbn [fst snd]. destruct q as [|i q]; cbn [added_to scElems scAdded]; rewrite filter_app, map_app; cbn [filter fst];
    destruct (addr_eqb p _); rewrite ?app_assoc; reflexivity. }
  rewrite X. destruct (addr_eqb p a) eqn:Q; [|now rewrite app_nil_r]. apply addr_eqb_spec in Q. subst a. apply (Permutation_NoDup (l := c :: get_children s p)); [apply Permutation_cons_append|]. constructor; [|exact N].
  intro J. assert (existsb (addr_eqb c) (get_children s p) = true) by (apply existsb_exists; exists c; split; [exact J|now apply addr_eqb_spec]). congruence.
Qed.
Lemma finish_nodup l : forall (s : scene T) a, NoDup (get_children s a) -> NoDup (get_children (fold_left add_children l s) a).
Proof.
  induction l as [|kc l IH]; intros s a N; [exact N|]. cbn [fold_left]. apply IH. unfold add_children. destruct (get_transform s [] (Some (fst kc)) None) as [pa|]; [|exact N].
  revert s N. induction (snd kc) as [|c cs IHc]; intros s N; [exact N|]. cbn [fold_left]. apply IHc. now apply add_child_nodup.
Qed.

(** ** The loop over the documents, one step at a time *)
Definition step (rec : string -> @lres T) (guid : string) (id : Z) (d : @udoc T) (st : @lstate T) : option (@lstate T) :=
  match d with
  | DGo None => None
  | DGo (Some g) => Some (mkLS ((id, EGo g) :: lsElems st) (lsObjs st ++ [([], id)]) (lsAdded st))
  | DTr (Some t) => Some (put st id (ETr t))
  | DRend (Some x) => Some (put st id (ERend x))
  | DTr None | DRend None | DOther => Some (put st id EOther)
  | DPrefab None => Some st
  | DPrefab (Some i) =>
      if piOld i || negb (valid (piSource i)) then Some st
      else match rec (match piSource i with Some q => srGuid q | None => "" end) with
           | Loaded s => place_prefab guid id i s st
           | LError => Some st
           | _ => None
           end
  end.
Fixpoint steps (rec : string -> @lres T) (guid : string) (ds : list (Z * @udoc T)) (st : @lstate T) : option (@lstate T) :=
  match ds with
  | [] => Some st
  | (id, d) :: r => match step rec guid id d st with Some st' => steps rec guid r st' | None => None end
  end.
Lemma load_steps rec guid ds : forall st s, load_docs rec guid ds st = Loaded s <-> exists st', steps rec guid ds st = Some st' /\ s = finish order guid st'.
Proof.
  induction ds as [|[id d] ds IH]; intros st s; cbn [UnityScene.load_docs steps].
  - split; [intro H; injection H as <-; now exists st|intros (st' & E & ->); now injection E as <-].
  - unfold step. destruct d as [[g|]|[t|]|[x|]|[i|]|]; try apply IH; try (split; [discriminate|intros (? & ? & _); discriminate]).
    destruct (piOld i || negb (valid (piSource i))); [apply IH|]. destruct (rec match piSource i with Some q => srGuid q | None => "" end) as [ps| | |]; try (split; [discriminate|intros (? & ? & _); discriminate]); [|apply IH].
    destruct (place_prefab guid id i ps st); [apply IH|split; [discriminate|intros (? & ? & _); discriminate]].
Qed.
Lemma steps_app rec guid a b st : steps rec guid (a ++ b) st = match steps rec guid a st with Some st' => steps rec guid b st' | None => None end.
Proof. revert st. induction a as [|[id d] a IH]; intro st; [reflexivity|]. cbn [app steps]. destruct (step rec guid id d st); [apply IH|reflexivity]. Qed.
(** What a step keeps. *)
Definition has_added (l : list (sref * list addr)) (k : sref) (c : addr) : Prop := exists x, In (k, x) l /\ In c x.
Lemma sref_eqb_spec a b : sref_eqb a b = true <-> a = b.
Proof.
  unfold sref_eqb. rewrite !andb_true_iff, !Z.eqb_eq, String.eqb_eq. destruct a, b. cbn. split; [intros [[-> ->] ->]; reflexivity|intro H; now injection H as -> -> ->].
Qed.
Lemma add_to_has l k cs : (forall c, In c cs -> has_added (add_to l k cs) k c) /\ forall k' c, has_added l k' c -> has_added (add_to l k cs) k' c.
Proof.
  induction l as [|[r x] l [IH1 IH2]]; cbn [add_to].
  - split; [intros c C; exists cs; split; [now left|exact C]|intros k' c (y & [] & _)].
  - destruct (sref_eqb r k) eqn:E.
    + apply sref_eqb_spec in E. subst r. split; [intros c C; exists (x ++ cs); split; [now left|apply in_or_app; now right]|]. intros k' c (y & [Y|Y] & C).
      * injection Y as <- <-. exists (x ++ cs). split; [now left|apply in_or_app; now left].
      * exists y. split; [now right|exact C].
    + split.
      * intros c C. destruct (IH1 c C) as (y & Y & D). exists y. split; [now right|exact D].
      * intros k' c (y & [Y|Y] & C); [injection Y as <- <-; exists x; split; [now left|exact C]|]. destruct (IH2 k' c) as (z & Z1 & Z2); [now exists y|]. exists z. split; [now right|exact Z2].
Qed.
Lemma omap_some {A B} (f : A -> B) o b : omap f o = Some b -> exists a, o = Some a /\ b = f a.
Proof. destruct o as [a|]; [|discriminate]. intro H. injection H as <-. now exists a. Qed.
Lemma place_shape guid id i ps st st' : place_prefab guid id i ps st = Some st' -> exists ps', lsElems st' = (id, EPrefab ps') :: lsElems st /\ (exists o, lsObjs st' = lsObjs st ++ o) /\
  forall k c, has_added (lsAdded st) k c -> has_added (lsAdded st') k c.
Proof.
  unfold UnityScene.place_prefab. destruct (scRoots ps) as [|root rs].
  - intro H. apply omap_some in H. destruct H as (ps' & _ & ->). exists ps'. cbn. split; [reflexivity|]. split; [exists []; now rewrite app_nil_r|auto].
  - destruct (object_transform ps root) as [ta|].
    + destruct (piParent i) as [par|]; [|discriminate]. intro H. apply omap_some in H. destruct H as (ps' & _ & ->). exists ps'. cbn [lsElems lsObjs lsAdded]. split; [reflexivity|]. split; [eexists; reflexivity|].
      intros k c A. match goal with |- has_added (match ?n with O => _ | S _ => _ end) _ _ => destruct n end; [exact A|]. now apply add_to_has.
    + intro H. apply omap_some in H. destruct H as (ps' & _ & ->). exists ps'. cbn. split; [reflexivity|]. split; [now eexists|auto].
Qed.
Lemma step_shape rec guid id d st st' : step rec guid id d st = Some st' ->
  (lsElems st' = lsElems st \/ exists e, lsElems st' = (id, e) :: lsElems st) /\ (exists o, lsObjs st' = lsObjs st ++ o) /\ forall k c, has_added (lsAdded st) k c -> has_added (lsAdded st') k c.
Proof.
  unfold step, put. intro H.
  assert (Z0 : (lsElems st = lsElems st \/ exists e, lsElems st = (id, e) :: lsElems st) /\ (exists o, lsObjs st = lsObjs st ++ o) /\ forall k c, has_added (lsAdded st) k c -> has_added (lsAdded st) k c).
  { split; [now left|]. split; [exists []; now rewrite app_nil_r|auto]. }
  destruct d as [[g|]|[t|]|[x|]|[i|]|]; try discriminate H; try (injection H as <-; cbn [lsElems lsObjs lsAdded]; (split; [right; eexists; eassumption || reflexivity|]); (split; [first [eexists; reflexivity|exists []; now rewrite app_nil_r]|auto])); [|injection H as <-; exact Z0].
  destruct (piOld i || negb (valid (piSource i))); [injection H as <-; exact Z0|]. destruct (rec match piSource i with Some q => srGuid q | None => "" end) as [ps| | |]; try discriminate H; [|injection H as <-; exact Z0].
  apply place_shape in H. destruct H as (ps' & A & B & C). split; [right; exists (EPrefab ps'); exact A|]. now split.
Qed.
Lemma steps_shape rec guid ds : forall st st', steps rec guid ds st = Some st' ->
  (forall k, ~ In k (map fst ds) -> find_elem (lsElems st') k = find_elem (lsElems st) k) /\ (exists o, lsObjs st' = lsObjs st ++ o) /\ forall k c, has_added (lsAdded st) k c -> has_added (lsAdded st') k c.
Proof.
  induction ds as [|[id d] ds IH]; intros st st' H; cbn [steps] in H; [injection H as <-; split; [auto|split; [exists []; now rewrite app_nil_r|auto]]|].
  destruct (step rec guid id d st) as [st1|] eqn:E; [|discriminate]. apply step_shape in E. destruct E as (A & (o & B) & C). destruct (IH st1 st' H) as (A' & (o' & B') & C'). split; [|split].
  - intros k K. cbn [map fst] in K. rewrite A' by (intro; apply K; now right). destruct A as [->|(e & ->)]; [reflexivity|]. cbn [find_elem]. destruct (id =? k) eqn:Q; [|reflexivity]. apply Z.eqb_eq in Q. destruct K. now left.
  - exists (o ++ o'). now rewrite B', B, app_assoc.
  - auto.
Qed.
(** The final scene. *)
Lemma finish_alike guid st : alike (finish order guid st) (mkScene guid (lsElems st) (filter (is_root (mkScene guid (lsElems st) [] [])) (lsObjs st)) []).
Proof. unfold finish. apply finish_facts. Qed.
Lemma has_ordered l k c : has_added l k c <-> has_added (order l) k c.
Proof. unfold has_added. split; intros (x & X & C); exists x; (split; [|exact C]); [apply (Permutation_in _ (Permutation_sym (order_perm l)))|apply (Permutation_in _ (order_perm l))]; exact X. Qed.

(** ** The prefab after its modifications *)
Definition similar (e e' : elem T) : Prop :=
  match e, e' with
  | EGo g, EGo g' => ugComps g' = ugComps g /\ ugPrefab g' = ugPrefab g /\ ugCorr g' = ugCorr g
  | ETr t, ETr t' => utGo t' = utGo t /\ utCorr t' = utCorr t /\ utPrefab t' = utPrefab t /\ utChildren t' = utChildren t
  | ERend _, ERend _ => True
  | EPrefab x, EPrefab y => x = y
  | EOther, EOther => True
  | _, _ => False
  end.
Definition matched (s s' : scene T) : Prop := scGuid s' = scGuid s /\ scRoots s' = scRoots s /\ scAdded s' = scAdded s /\
  forall k, match find_elem (scElems s) k, find_elem (scElems s') k with Some e, Some e' => similar e e' | None, None => True | _, _ => False end.
Lemma similar_refl e : similar e e.
Proof. destruct e; cbn; auto. Qed.
Lemma similar_trans a b c : similar a b -> similar b c -> similar a c.
Proof. destruct a, b, c; cbn; try tauto; try congruence; [intros (? & ? & ?) (? & ? & ?)|intros (? & ? & ? & ?) (? & ? & ? & ?)]; repeat split; congruence. Qed.
Lemma matched_refl s : matched s s.
Proof. repeat split; auto. intro k. destruct (find_elem (scElems s) k); [apply similar_refl|exact I]. Qed.
Lemma matched_trans a b c : matched a b -> matched b c -> matched a c.
Proof.
  intros (A & B & C & D) (A' & B' & C' & D'). split; [congruence|]. split; [congruence|]. split; [congruence|]. intro k. specialize (D k). specialize (D' k).
  destruct (find_elem (scElems a) k), (find_elem (scElems b) k), (find_elem (scElems c) k); try contradiction; auto. exact (similar_trans _ _ _ D D').
Qed.
Lemma matched_upd (s : scene T) k f : (forall e, find_elem (scElems s) k = Some e -> similar e (f e)) -> matched s (update_at [] k f s).
Proof.
  intro H. cbn [update_at]. repeat split; auto. intro j. cbn [set_elems scElems]. rewrite find_upd. destruct (k =? j) eqn:E; [|destruct (find_elem (scElems s) j); [apply similar_refl|exact I]].
  apply Z.eqb_eq in E. subst j. destruct (find_elem (scElems s) k) as [e|]; cbn; [|exact I]. now apply H.
Qed.
Lemma ordinary_head m : @ordinary T m -> hd "" (split "." (pmPath m)) <> "m_CorrespondingSourceObject" /\ hd "" (split "." (pmPath m)) <> "m_PrefabInstance" /\ hd "" (split "." (pmPath m)) <> "m_Children".
Proof.
  intro O. split; [|split]; intro H.
  - destruct (O "m_CorrespondingSourceObject") as [A B]; [right; now left|]. apply A. apply head_whole; [cbv; intuition discriminate|exact B|exact H].
  - destruct (O "m_PrefabInstance") as [A B]; [now left|]. apply A. apply head_whole; [cbv; intuition discriminate|exact B|exact H].
  - destruct (O "m_Children") as [A B]; [right; right; now left|]. apply A. apply head_whole; [cbv; intuition discriminate|exact B|exact H].
Qed.
Lemma modify_similar m e e' : ordinary m -> modify m e = Some e' -> similar e e'.
Proof.
  intros O H. apply ordinary_head in O. destruct O as (O1 & O2 & O3). destruct e as [g|t|r|x|].
  - destruct (modify_go zero of_int to_int m g e' H) as (g' & -> & A & B & C & _). cbn. auto.
  - destruct (modify_tr zero of_int to_int m t e' H) as (t' & -> & A & B & C & D & [E|E] & _); [|contradiction]. cbn. auto.
  - unfold UnityScene.modify in H. repeat match type of H with (if ?b then _ else _) = _ => destruct b end; try (injection H as <-; exact I); apply omap_some in H; destruct H as (q & _ & ->); exact I.
  - cbn in H. injection H as <-. reflexivity.
  - cbn in H. injection H as <-. exact I.
Qed.
Lemma mods_matched ms : forall s s', Forall ordinary ms -> modify_all ms s = Some s' -> matched s s'.
Proof.
  induction ms as [|m r IH]; intros s s' O H; cbn [UnityScene.modify_all] in H; [injection H as <-; apply matched_refl|]. inversion O as [|? ? O1 O2]; subst.
  rewrite target_found in H. destruct (pmTarget m) as [q|]; [|now apply IH]. destruct (srFile q =? 0); [now apply IH|]. destruct (find_elem (scElems s) (srFile q)) as [x|] eqn:X; [|now apply IH]. cbn [snd] in H. rewrite X in H.
  destruct (modify m x) as [x'|] eqn:M; [|discriminate]. apply IH in H; [|exact O2]. refine (matched_trans _ _ _ _ H). apply matched_upd. intros e E. rewrite X in E. injection E as <-. now apply (modify_similar m).
Qed.
Section Matched.
Variables (s s' : scene T).
Hypothesis M : matched s s'.
Lemma sub_matched i p : sub s' (i :: p) = sub s (i :: p).
Proof.
  destruct M as (_ & _ & _ & D). cbn [sub]. specialize (D i). destruct (find_elem (scElems s) i) as [[g|t|x|z|]|], (find_elem (scElems s') i) as [[g'|t'|x'|z'|]|]; cbn in D; try contradiction; try reflexivity. now subst z'.
Qed.
Lemma element_matched p r inst : get_element2 s' p r inst = get_element2 s p r inst.
Proof.
  destruct p as [|j p]; [|unfold get_element2; now rewrite sub_matched].
  destruct M as (A & B & C & D). unfold get_element2. destruct r as [r|]; [|reflexivity]. cbn [sub]. rewrite A. destruct (negb (valid (Some r))); [reflexivity|].
  destruct (negb (String.eqb (srGuid r) "") && negb (String.eqb (srGuid r) (scGuid s)) && valid inst).
  - destruct inst as [i|]; [|reflexivity]. specialize (D (srFile i)). destruct (find_elem (scElems s) (srFile i)) as [[g|t|x|z|]|], (find_elem (scElems s') (srFile i)) as [[g'|t'|x'|z'|]|]; cbn in D; try contradiction; try reflexivity. now subst z'.
  - specialize (D (srFile r)). destruct (find_elem (scElems s) (srFile r)), (find_elem (scElems s') (srFile r)); try contradiction; reflexivity.
Qed.
Lemma elem_matched a : match elem_at s a, elem_at s' a with Some e, Some e' => similar e e' | None, None => True | _, _ => False end.
Proof.
  destruct a as [[|i p] k]; unfold elem_at; cbn [fst snd]; [cbn [sub]; apply M|]. rewrite sub_matched. destruct (sub s (i :: p)) as [z|]; [|exact I]. destruct (find_elem (scElems z) k); [apply similar_refl|exact I].
Qed.
Lemma tr_matched a : (tr_at s a = None /\ tr_at s' a = None) \/ exists t t', tr_at s a = Some t /\ tr_at s' a = Some t' /\ similar (ETr t) (ETr t').
Proof.
  assert (D := elem_matched a). unfold tr_at. destruct (elem_at s a) as [[g|t|x|z|]|], (elem_at s' a) as [[g'|t'|x'|z'|]|]; cbn [similar] in D; try contradiction; auto. right. now exists t, t'.
Qed.
Lemma go_matched a : (go_at s a = None /\ go_at s' a = None) \/ exists g g', go_at s a = Some g /\ go_at s' a = Some g' /\ similar (EGo g) (EGo g').
Proof.
  assert (D := elem_matched a). unfold go_at. destruct (elem_at s a) as [[g|t|x|z|]|], (elem_at s' a) as [[g'|t'|x'|z'|]|]; cbn [similar] in D; try contradiction; auto. right. now exists g, g'.
Qed.
Lemma first_matched p inst cs : first_transform s' p inst cs = first_transform s p inst cs.
Proof.
  induction cs as [|c cs IH]; [reflexivity|]. cbn [first_transform]. rewrite element_matched. destruct (get_element2 s p (Some c) inst) as [a|]; [|exact IH].
  destruct (tr_matched a) as [[-> ->]|(t & t' & -> & -> & _)]; [exact IH|reflexivity].
Qed.
Lemma object_transform_matched a : object_transform s' a = object_transform s a.
Proof.
  unfold object_transform. destruct (go_matched a) as [[-> ->]|(g & g' & -> & -> & D1 & D2 & _)]; [reflexivity|]. rewrite D1, D2. apply first_matched.
Qed.
Lemma get_transform_matched p r inst : get_transform s' p r inst = get_transform s p r inst.
Proof.
  unfold get_transform. rewrite element_matched. destruct (get_element2 s p r inst) as [a|]; [|reflexivity]. destruct (tr_matched a) as [[-> ->]|(t & t' & -> & -> & D1 & D2 & D3 & D4)]; [reflexivity|]. rewrite D1, D2, D3, element_matched.
  destruct (negb (valid (Some (utGo t))) && valid (utCorr t)); [|reflexivity]. destruct (get_element2 s (fst a) (utCorr t) (utPrefab t)) as [b|]; [|reflexivity].
  destruct (tr_matched b) as [[-> ->]|(u & u' & -> & -> & _)]; reflexivity.
Qed.
Lemma transform_object_matched a : transform_object s' a = transform_object s a.
Proof.
  unfold transform_object. destruct (tr_matched a) as [[-> ->]|(t & t' & -> & -> & D1 & D2 & D3 & D4)]; [reflexivity|]. rewrite D1, D3, element_matched. destruct (get_element2 s (fst a) (Some (utGo t)) (utPrefab t)) as [b|]; [|reflexivity].
  destruct (go_matched b) as [[-> ->]|(u & u' & -> & -> & _)]; reflexivity.
Qed.
Lemma children_matched a : get_children s' a = get_children s a.
Proof.
  unfold get_children, listed_children. f_equal.
  - destruct (tr_matched a) as [[-> ->]|(t & t' & -> & -> & D1 & D2 & D3 & D4)]; [reflexivity|]. rewrite D3, D4. apply flat_map_ext. intro c. now rewrite get_transform_matched.
  - destruct a as [[|i p] k]; cbn [fst snd added_to].
    + destruct M as (_ & _ & C & _). now rewrite C.
    + destruct M as (_ & _ & C & D). rewrite C. f_equal. specialize (D i).
      destruct (find_elem (scElems s) i) as [[g|t|x|z|]|], (find_elem (scElems s') i) as [[g'|t'|x'|z'|]|]; cbn in D; try contradiction; try reflexivity. now subst z'.
Qed.
End Matched.
Lemma element_nonzero (s : scene T) p r inst a : get_element2 s p r inst = Some a -> snd a <> 0.
Proof.
  unfold get_element2. destruct r as [r|]; [|discriminate]. destruct (sub s p) as [s'|]; [|discriminate]. cbn [valid]. destruct (srFile r =? 0) eqn:E; [discriminate|]. apply Z.eqb_neq in E. cbn [negb].
  destruct (negb (String.eqb (srGuid r) "") && negb (String.eqb (srGuid r) (scGuid s')) && valid inst).
  - destruct inst as [i|]; [|discriminate]. destruct (find_elem (scElems s') (srFile i)) as [[g|t|x|z|]|]; try discriminate. destruct (find_elem (scElems z) (srFile r)); [|discriminate]. intro H. injection H as <-. exact E.
  - destruct (find_elem (scElems s') (srFile r)); [|discriminate]. intro H. injection H as <-. exact E.
Qed.
Lemma first_nonzero (s : scene T) p inst cs a : first_transform s p inst cs = Some a -> snd a <> 0 /\ (exists t, tr_at s a = Some t) /\
  exists c, In c cs /\ exists b, get_element2 s p (Some c) inst = Some b /\ exists t, tr_at s b = Some t.
Proof.
  induction cs as [|c cs IH]; [discriminate|]. cbn [first_transform]. destruct (get_element2 s p (Some c) inst) as [b|] eqn:E.
  - destruct (tr_at s b) as [t|] eqn:F.
    + intro H. injection H as <-. split; [exact (element_nonzero _ _ _ _ _ E)|]. split; [now exists t|]. exists c. split; [now left|]. exists b. split; [exact E|now exists t].
    + intro H. destruct (IH H) as (A & B & c' & C & D). split; [exact A|]. split; [exact B|]. exists c'. split; [now right|exact D].
  - intro H. destruct (IH H) as (A & B & c' & C & D). split; [exact A|]. split; [exact B|]. exists c'. split; [now right|exact D].
Qed.
(** Roots of a loaded scene. *)
Lemma loaded_finish n guid s : load n guid = Loaded s -> exists m ds st, n = S m /\ files guid = Some ds /\ steps (load m) guid ds (mkLS [] [] []) = Some st /\ s = finish order guid st.
Proof.
  destruct n as [|n]; [discriminate|]. cbn [UnityScene.load]. destruct (files guid) as [ds|]; [|discriminate]. intro H. apply load_steps in H. destruct H as (st & A & B). now exists n, ds, st.
Qed.
Lemma finish_root guid (st : @lstate T) a : In a (scRoots (finish order guid st)) <-> In a (lsObjs st) /\ is_root (finish order guid st) a = true.
Proof.
  destruct (finish_alike guid st) as (A & B & C). rewrite C. cbn [scRoots]. rewrite filter_In. cbn [scGuid scElems] in A, B.
  now rewrite (is_root_alike (finish order guid st) (mkScene guid (lsElems st) [] [])).
Qed.
(** The documents of a file among the elements. *)
Lemma doc_step rec guid ds id d st st' : NoDup (map fst ds) -> In (id, d) ds -> steps rec guid ds st = Some st' -> find_elem (lsElems st) id = None ->
  exists st1 st2, step rec guid id d st1 = Some st2 /\ find_elem (lsElems st1) id = None /\ find_elem (lsElems st') id = find_elem (lsElems st2) id /\
  (forall a, In a (lsObjs st2) -> In a (lsObjs st')) /\ forall k c, has_added (lsAdded st2) k c -> has_added (lsAdded st') k c.
Proof.
  intros N In0 H F. apply in_split in In0. destruct In0 as (l1 & l2 & ->). rewrite steps_app in H. destruct (steps rec guid l1 st) as [st1|] eqn:E1; [|discriminate]. cbn [steps] in H.
  destruct (step rec guid id d st1) as [st2|] eqn:E2; [|discriminate]. rewrite map_app in N. cbn [map fst] in N. apply NoDup_remove in N. destruct N as [N1 N2].
  exists st1, st2. split; [exact E2|]. destruct (steps_shape _ _ _ _ _ E1) as (A1 & _ & _). destruct (steps_shape _ _ _ _ _ H) as (A2 & (o & B2) & C2). split; [|split; [|split]].
  - rewrite A1; [exact F|]. intro X. apply N2. apply in_or_app. now left.
  - apply A2. intro X. apply N2. apply in_or_app. now right.
  - intros a X. rewrite B2. apply in_or_app. now left.
  - exact C2.
Qed.
Lemma doc_tr rec guid ds k t st' : NoDup (map fst ds) -> In (k, DTr (Some t)) ds -> steps rec guid ds (mkLS [] [] []) = Some st' -> find_elem (lsElems st') k = Some (ETr t).
Proof.
  intros N J H. destruct (doc_step rec guid ds k _ _ _ N J H eq_refl) as (st1 & st2 & S1 & _ & F & _). rewrite F. cbn [step] in S1. injection S1 as <-. cbn. now rewrite Z.eqb_refl.
Qed.

(** ** One instance *)
Section Instance.
Variables (n : nat) (guid : string) (ds : list (Z * @udoc T)) (s ps : scene T) (id f k0 : Z) (i : @pinst T) (src par : sref).
Hypothesis IN : instance files load n guid ds s ps id f k0 i src par.
Ltac facts := assert (IN0 := IN); destruct IN0 as [FI ND LO DI NO SR VS LP [rs RO] TR PA OM].
Definition father : sref := mkSRef (srFile par) guid (srType par).
Definition placed : scene T := update_at [] k0 (set_father father) ps.

Lemma instance_state : exists st st', s = finish order guid st' /\ steps (load n) guid ds (mkLS [] [] []) = Some st' /\
  exists ps', modify_all (piMods i) placed = Some ps' /\ find_elem (lsElems st') id = Some (EPrefab ps') /\ In ([id], f) (lsObjs st') /\ has_added (lsAdded st') father ([id], k0) /\ st = st'.
Proof.
  facts.
  destruct (loaded_finish _ _ _ LO) as (m & ds' & st' & E & F & S0 & ->). injection E as <-. rewrite FI in F. injection F as <-. exists st', st'. split; [reflexivity|]. split; [exact S0|].
  destruct (doc_step _ _ _ _ _ _ _ ND DI S0 eq_refl) as (st1 & st2 & S1 & _ & FE & OB & AD). cbn [step] in S1. rewrite NO, SR in S1. cbn [orb valid] in S1. apply Z.eqb_neq in VS. rewrite VS in S1. cbn [negb] in S1. rewrite LP in S1.
  unfold UnityScene.place_prefab in S1. rewrite RO, TR, PA in S1. cbn zeta in S1. apply omap_some in S1. destruct S1 as (ps' & M & ->). cbn [lsElems lsObjs lsAdded fst snd] in *.
  exists ps'. split; [exact M|]. split; [rewrite FE; cbn; now rewrite Z.eqb_refl|]. split; [apply OB; apply in_or_app; right; now left|]. split; [|reflexivity]. apply AD. clear -TR.
  unfold object_transform in TR. destruct (go_at ps ([], f)) as [g|]; [|discriminate]. cbn [fst] in TR. apply first_nonzero in TR. destruct TR as (_ & _ & c & C & b & B & t & TB).
  match goal with |- has_added (match ?n with O => _ | S _ => _ end) _ _ => destruct n as [|q] eqn:Q end.
  - exfalso. apply length_zero_iff_nil in Q. assert (X : In c (@nil sref)); [|exact X]. rewrite <- Q. apply filter_In. split; [exact C|]. now rewrite B, TB.
  - apply (proj1 (add_to_has _ _ _)). cbn [repeat]. now left.
Qed.
Lemma instance_scene : exists ps', modify_all (piMods i) placed = Some ps' /\ find_elem (scElems s) id = Some (EPrefab ps').
Proof.
  destruct instance_state as (st & st' & -> & S0 & ps' & M & F & _). exists ps'. split; [exact M|]. destruct (finish_alike guid st') as (_ & B & _). rewrite B. exact F.
Qed.
Lemma root_transform_found : k0 <> 0 /\ exists t, find_elem (scElems ps) k0 = Some (ETr t).
Proof.
  facts.
  unfold object_transform in TR. destruct (go_at ps ([], f)) as [g|]; [|discriminate]. cbn [fst] in TR. apply first_nonzero in TR. destruct TR as (A & (t & B) & _). split; [exact A|]. exists t. unfold tr_at, elem_at in B. cbn [fst snd sub] in B.
  destruct (find_elem (scElems ps) k0) as [[g0|t0|x|z|]|]; try discriminate. now injection B as ->.
Qed.
Lemma placed_elem k : find_elem (scElems placed) k = if k0 =? k then omap (set_father father) (find_elem (scElems ps) k) else find_elem (scElems ps) k.
Proof. unfold placed. cbn [update_at set_elems scElems]. apply find_upd. Qed.
Lemma placed_matched : matched ps placed.
Proof. apply matched_upd. intros e _. destruct e; cbn; auto. Qed.
Lemma instance_root : In ([id], f) (scRoots s) <-> srFile par = 0.
Proof.
  facts.
  destruct instance_state as (st & st' & E & S0 & ps' & M & F & O & A & _). assert (Al := finish_alike guid st'). rewrite <- E in Al. destruct Al as (Ag & Ae & _). cbn [scGuid scElems] in Ag, Ae.
  assert (FE : find_elem (scElems s) id = Some (EPrefab ps')) by (rewrite Ae; exact F).
  assert (MM : matched ps ps') by (exact (matched_trans _ _ _ placed_matched (mods_matched _ _ _ OM M))).
  rewrite E, finish_root, <- E. transitivity (is_root s ([id], f) = true); [tauto|].
  unfold is_root. change ([id], f) with (push id ([], f)). rewrite (object_transform_in s ps' id FE), (object_transform_matched ps ps' MM), TR. cbn [option_map]. rewrite (go_in s ps' id FE), (tr_in s ps' id FE).
  destruct (loaded_finish _ _ _ LP) as (m & ds' & st2 & _ & _ & _ & E2). assert (R : In ([], f) (scRoots ps)) by (rewrite RO; now left). rewrite E2, finish_root, <- E2 in R. destruct R as [_ R]. unfold is_root in R. rewrite TR in R.
  destruct MM as (_ & _ & _ & D). specialize (D f). unfold go_at, elem_at in R |- *. cbn [fst snd sub] in R |- *.
  destruct (find_elem (scElems ps) f) as [[g|?|?|?|]|]; try discriminate. destruct (find_elem (scElems ps') f) as [[g'|?|?|?|]|]; cbn in D; try contradiction. destruct D as (_ & _ & D).
  destruct root_transform_found as (K & t & FT). assert (FP : find_elem (scElems placed) k0 = Some (set_father father (ETr t))) by (rewrite placed_elem, Z.eqb_refl, FT; reflexivity).
  cbn [set_father] in FP. destruct (mods_tr zero of_int to_int _ _ _ k0 _ K M FP) as (t' & FT' & _ & FA & _). cbn [utFather] in FA.
  unfold tr_at, elem_at in R |- *. cbn [fst snd sub] in R |- *. rewrite FT in R. rewrite FT', FA, D. apply andb_true_iff in R. destruct R as [_ R]. rewrite R, andb_true_r. cbn [valid father srFile]. rewrite negb_involutive. apply Z.eqb_eq.
Qed.
Lemma instance_child pa : get_transform s [] (Some father) None = Some pa -> In ([id], k0) (get_children s pa).
Proof.
  destruct instance_state as (st & st' & -> & S0 & ps' & M & F & O & A & _). intro G. assert (Al := finish_alike guid st'). destruct Al as (Ag & Ae & _).
  apply has_ordered in A. destruct A as (x & X & C). unfold finish in *. refine (proj1 (proj2 (finish_facts _ _)) father x pa _ X _ C). rewrite <- G. symmetry. now apply get_transform_alike.
Qed.
(** The parent is a transform of the scene itself. *)
Lemma parent_plain tp : In (srFile par, DTr (Some tp)) ds -> srFile par <> 0 -> srFile (utGo tp) <> 0 -> get_transform s [] (Some father) None = Some ([], srFile par).
Proof.
  facts.
  intros J Z0 Z1. destruct instance_state as (st & st' & E & S0 & _). assert (Al := finish_alike guid st'). rewrite <- E in Al. destruct Al as (Ag & Ae & _). cbn [scGuid scElems] in Ag, Ae.
  assert (FE := doc_tr _ _ _ _ _ _ ND J S0). rewrite <- Ae in FE. unfold get_transform. rewrite target_found. cbn [father srFile]. apply Z.eqb_neq in Z0. rewrite Z0, FE. unfold tr_at, elem_at. cbn [fst snd sub]. rewrite FE.
  cbn [valid]. apply Z.eqb_neq in Z1. now rewrite Z1.
Qed.
(** The parent is a stripped transform: it stands for a transform of another instance. *)
Lemma parent_stripped tp q j qs : In (srFile par, DTr (Some tp)) ds -> srFile par <> 0 -> srFile (utGo tp) = 0 -> utCorr tp = Some q -> utPrefab tp = Some j -> srFile q <> 0 -> srFile j <> 0 ->
  srGuid q <> "" -> srGuid q <> guid -> find_elem (scElems s) (srFile j) = Some (EPrefab qs) -> (exists tq, find_elem (scElems qs) (srFile q) = Some (ETr tq)) -> 
  get_transform s [] (Some father) None = Some ([srFile j], srFile q).
Proof.
  facts.
  intros J Z0 Z1 C P Q0 J0 G1 G2 FJ (tq & FQ). destruct instance_state as (st & st' & E & S0 & _). assert (Al := finish_alike guid st'). rewrite <- E in Al. destruct Al as (Ag & Ae & _). cbn [scGuid scElems] in Ag, Ae.
  assert (FE := doc_tr _ _ _ _ _ _ ND J S0). rewrite <- Ae in FE. unfold get_transform. rewrite target_found. cbn [father srFile]. apply Z.eqb_neq in Z0. rewrite Z0, FE. unfold tr_at at 1, elem_at at 1. cbn [fst snd sub]. rewrite FE.
  cbn [valid]. rewrite Z1, C, P. apply Z.eqb_neq in Q0. cbn [Z.eqb negb andb valid]. rewrite Q0. cbn [negb]. unfold get_element2. cbn [valid sub]. rewrite Q0, Ag. apply String.eqb_neq in G1. apply String.eqb_neq in G2. apply Z.eqb_neq in J0.
  rewrite G1, G2, J0. cbn [negb andb]. rewrite FJ, FQ. cbn [app]. unfold tr_at, elem_at. cbn [fst snd sub]. rewrite FJ, FQ. reflexivity.
Qed.
(** What modifications do to the elements of the prefab. *)
Lemma instance_elem k : k <> 0 -> exists ps', find_elem (scElems s) id = Some (EPrefab ps') /\ modify_all (piMods i) placed = Some ps' /\ matched ps ps'.
Proof.
  intro K. facts. destruct instance_scene as (ps' & M & F). exists ps'. split; [exact F|]. split; [exact M|]. exact (matched_trans _ _ _ placed_matched (mods_matched _ _ _ OM M)).
Qed.
Lemma elem_top (x : scene T) k : elem_at x ([], k) = find_elem (scElems x) k.
Proof. reflexivity. Qed.
Lemma tr_top (x : scene T) k t : tr_at x ([], k) = Some t <-> find_elem (scElems x) k = Some (ETr t).
Proof. unfold tr_at. rewrite elem_top. destruct (find_elem (scElems x) k) as [[g|u|r|z|]|]; split; intro H; try discriminate; injection H as <-; reflexivity. Qed.
Lemma go_top (x : scene T) k t : go_at x ([], k) = Some t <-> find_elem (scElems x) k = Some (EGo t).
Proof. unfold go_at. rewrite elem_top. destruct (find_elem (scElems x) k) as [[g|u|r|z|]|]; split; intro H; try discriminate; injection H as <-; reflexivity. Qed.
Lemma instance_numbers k t : k <> 0 -> tr_at ps ([], k) = Some t -> exists t', tr_at s ([id], k) = Some t' /\ utGo t' = utGo t /\ utFather t' = (if k =? k0 then mkSRef (srFile par) guid (srType par) else utFather t) /\
  forall path get, number path = Some get ->
    match last_mod k path (piMods i) with
    | Some m => (forall x, pmValue m = VFloat x -> get t' = x) /\ (forall z, pmValue m = VInt z -> get t' = of_int z)
    | None => get t' = get t
    end.
Proof.
  intros K E. destruct (instance_elem k K) as (ps' & F & M & MM). apply tr_top in E. assert (FP := placed_elem k). rewrite E in FP.
  assert (X : exists t1, find_elem (scElems placed) k = Some (ETr t1) /\ utGo t1 = utGo t /\ utFather t1 = (if k =? k0 then father else utFather t) /\ forall path (get : utrans T -> T), number path = Some get -> get t1 = get t).
  { rewrite (Z.eqb_sym k k0). destruct (k0 =? k); [|exists t; auto]. cbn [omap set_father] in FP. eexists. split; [exact FP|]. split; [reflexivity|]. split; [reflexivity|]. intros path get N. unfold number in N.
    repeat (match type of N with (if ?b then _ else _) = _ => destruct b end; [injection N as <-; reflexivity|]). discriminate. }
  destruct X as (t1 & F1 & A1 & B1 & C1). destruct (mods_tr zero of_int to_int _ _ _ k t1 K M F1) as (t' & F' & A' & B' & C').
  exists t'. split; [change ([id], k) with (push id ([], k)); rewrite (tr_in s ps' id F); now apply tr_top|]. split; [congruence|]. split; [rewrite B'; exact B1|]. intros path get N. specialize (C' path get N). specialize (C1 path get N).
  destruct (last_mod k path (piMods i)) as [m|]; [split; intros x X; rewrite X in C'; exact C'|congruence].
Qed.
Lemma instance_object k g : k <> 0 -> go_at ps ([], k) = Some g -> Forall (whole "m_Name") (piMods i) -> Forall (whole "m_IsActive") (piMods i) ->
  exists g', go_at s ([id], k) = Some g' /\ ugComps g' = ugComps g /\
  match last_mod k "m_Name" (piMods i) with Some m => forall x, pmValue m = VStr x -> ugName g' = x | None => ugName g' = ugName g end /\
  match last_mod k "m_IsActive" (piMods i) with Some m => forall z, pmValue m = VInt z -> ugActive g' = to_int (of_int z) | None => ugActive g' = ugActive g end.
Proof.
  intros K E W1 W2. destruct (instance_elem k K) as (ps' & F & M & MM). apply go_top in E. assert (FP := placed_elem k). rewrite E in FP. assert (FQ : find_elem (scElems placed) k = Some (EGo g)) by (rewrite FP; destruct (k0 =? k); reflexivity).
  destruct (mods_go zero of_int to_int _ _ _ k g K M FQ W1 W2) as (g' & F' & A & B & C). exists g'. split; [change ([id], k) with (push id ([], k)); rewrite (go_in s ps' id F); now apply go_top|]. split; [exact A|]. split.
  - destruct (last_mod k "m_Name" (piMods i)) as [m|]; [intros x X; rewrite X in B; exact B|exact B].
  - destruct (last_mod k "m_IsActive" (piMods i)) as [m|]; [intros x X; rewrite X in C; exact C|exact C].
Qed.
Lemma instance_materials k r : k <> 0 -> elem_at ps ([], k) = Some (ERend r) -> Forall material_mod (piMods i) ->
  exists r', elem_at s ([id], k) = Some (ERend r') /\ length (urMaterials r') = length (urMaterials r) /\
  forall j, (j < length (urMaterials r))%nat -> nth_error (urMaterials r') j = match last_mod k (material_path j) (piMods i) with Some m => Some (pmRef m) | None => nth_error (urMaterials r) j end.
Proof.
  intros K E W. destruct (instance_elem k K) as (ps' & F & M & MM). rewrite elem_top in E. assert (FP := placed_elem k). rewrite E in FP. assert (FQ : find_elem (scElems placed) k = Some (ERend r)) by (rewrite FP; destruct (k0 =? k); reflexivity).
  destruct (mods_rend zero of_int to_int _ _ _ k r K M FQ W) as (r' & F' & A). exists r'. split; [|exact A]. change ([id], k) with (push id ([], k)). rewrite (elem_in_instance s ps' id F), elem_top. exact F'.
Qed.
(** The tree inside of the instance. *)
Lemma instance_tree a : object_transform s (push id a) = option_map (push id) (object_transform ps a) /\ transform_object s (push id a) = option_map (push id) (transform_object ps a) /\
  exists l, get_children s (push id a) = map (push id) (get_children ps a) ++ l.
Proof.
  destruct (instance_elem 1) as (ps' & F & M & MM); [discriminate|]. rewrite (object_transform_in s ps' id F), (transform_object_in s ps' id F), (children_in s ps' id F), (object_transform_matched ps ps' MM), (transform_object_matched ps ps' MM), (children_matched ps ps' MM).
  split; [reflexivity|]. split; [reflexivity|]. now eexists.
Qed.
Lemma instance_below tp : In (srFile par, DTr (Some tp)) ds -> srFile par <> 0 -> srFile (utGo tp) <> 0 -> In ([id], k0) (get_children s ([], srFile par)).
Proof. intros A B C. apply instance_child. now apply (parent_plain tp). Qed.
Lemma instance_below_other tp q j qs : In (srFile par, DTr (Some tp)) ds -> srFile par <> 0 -> srFile (utGo tp) = 0 -> utCorr tp = Some q -> utPrefab tp = Some j -> srFile q <> 0 -> srFile j <> 0 ->
  srGuid q <> "" -> srGuid q <> guid -> find_elem (scElems s) (srFile j) = Some (EPrefab qs) -> (exists tq, find_elem (scElems qs) (srFile q) = Some (ETr tq)) -> 
  In ([id], k0) (get_children s ([srFile j], srFile q)).
Proof. intros. apply instance_child. now apply (parent_stripped tp q j qs). Qed.
End Instance.
(** Children are not repeated. *)
Lemma loaded_nodup n guid s k : load n guid = Loaded s -> NoDup (listed_children s ([], k)) -> NoDup (get_children s ([], k)).
Proof.
  intros L N. destruct (loaded_finish _ _ _ L) as (m & ds & st & _ & _ & _ & ->). assert (Al := finish_alike guid st). destruct Al as (Ag & Ae & _). rewrite (listed_alike _ _ Ag Ae) in N.
  unfold finish. apply finish_nodup. unfold get_children. cbn [fst snd added_to scAdded filter map]. now rewrite !app_nil_r.
Qed.
End P.
