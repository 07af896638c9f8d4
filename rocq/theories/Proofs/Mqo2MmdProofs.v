(** The MQO to PMX conversion: faces, weights, morph offsets. *)
From Coq Require Import String List ZArith Bool Lia Permutation.
From Verif.Model Require Import Num Vec Matrix Mqo MqoDoc Mmd2Mqo Normals Mqo2Mmd.
From Verif Require Import Spec.MmdConvSpec Spec.Mqo2MmdSpec Proofs.MqoObjProofs Proofs.MqoDocProofs Proofs.Mmd2MqoGroups
  Proofs.Mmd2MqoFaces Proofs.Mmd2MqoProofs.
Import ListNotations.
Local Open Scope Z_scope.
Local Open Scope list_scope.

Lemma last_index_Some {A} (q : A -> bool) l : forall i, last_index q l = Some i ->
  exists a x b, l = a ++ x :: b /\ length a = i /\ q x = true /\ Forall (fun y => q y = false) b.
Proof.
  induction l as [|x l IH]; intros i E; cbn [last_index] in E; [discriminate|].
  destruct (last_index q l) as [j|] eqn:El.
  - injection E as <-. destruct (IH j eq_refl) as (a & y & b & -> & <- & Hq & F). exists (x :: a), y, b. auto.
  - destruct (q x) eqn:Eq; [|discriminate]. injection E as <-. exists [], x, l. split; [reflexivity|]. split; [reflexivity|].
    split; [exact Eq|]. clear -El. induction l as [|y l IH]; [constructor|]. cbn [last_index] in El.
    destruct (last_index q l); [discriminate|]. destruct (q y) eqn:E; [discriminate|]. constructor; auto.
Qed.
Lemma last_index_None {A} (q : A -> bool) l : last_index q l = None <-> Forall (fun y => q y = false) l.
Proof.
  induction l as [|x l IH]; cbn [last_index]; [split; [constructor|reflexivity]|].
  destruct (last_index q l) as [j|]; split; intros H; try discriminate.
  - inversion H; subst. apply IH in H3. discriminate.
  - destruct (q x) eqn:E; [discriminate|]. constructor; [exact E|]. apply IH. reflexivity.
  - inversion H; subst. rewrite H2. reflexivity.
Qed.

Lemma forall2_weak {A B} (P Q : A -> B -> Prop) : (forall a b, P a b -> Q a b) -> forall l m, Forall2 P l m -> Forall2 Q l m.
Proof. intros H l m F. induction F; constructor; auto. Qed.
Lemma forall2_weak_in {A B} (P Q : A -> B -> Prop) l m : (forall a b, In a l -> P a b -> Q a b) -> Forall2 P l m -> Forall2 Q l m.
Proof. intros H F. induction F as [|a b l m P0 F IH]; constructor; [apply H; [left; reflexivity|exact P0]|]. apply IH. intros x y I. apply H. right. exact I. Qed.
Lemma forall2_map_l {A B C} (g : A -> B) (P : B -> C -> Prop) l : forall m, Forall2 P (map g l) m <-> Forall2 (fun a c => P (g a) c) l m.
Proof.
  induction l as [|a l IH]; intros m; cbn [map]; split; intros H; inversion H; subst; constructor; auto; apply IH; assumption.
Qed.
Lemma forall2_nth {A B} (P : A -> B -> Prop) l m : Forall2 P l m -> forall i a, nth_error l i = Some a -> exists b, nth_error m i = Some b /\ P a b.
Proof.
  intros F. induction F as [|a b l m H F IH]; intros [|i] x E; cbn in E; try discriminate; [|apply IH; exact E].
  injection E as <-. exists b. auto.
Qed.
Lemma forall2_nth_none {A B} (P : A -> B -> Prop) l m : Forall2 P l m -> forall i, nth_error l i = None -> nth_error m i = None.
Proof. intros F. induction F as [|a b l m H F IH]; intros [|i] E; cbn in *; auto; discriminate. Qed.

(** *** Fans *)

Lemma triangles_forall2 {A B} (R : A -> B -> Prop) l m : Forall2 R l m -> Forall2 (Forall2 R) (triangles l) (triangles m).
Proof.
  intros F. unfold triangles. rewrite <- (forall2_len _ _ _ F). induction (seq 0 (length l)) as [|n ns IH]; [constructor|].
  cbn [flat_map]. apply Forall2_app; [|exact IH].
  destruct (nth_error l 0) as [a|] eqn:E0; [|rewrite (forall2_nth_none _ _ _ F _ E0); constructor].
  destruct (forall2_nth _ _ _ F _ _ E0) as (a' & -> & Ra).
  destruct (nth_error l (n + 1)) as [b|] eqn:E1; [|rewrite (forall2_nth_none _ _ _ F _ E1); constructor].
  destruct (forall2_nth _ _ _ F _ _ E1) as (b' & -> & Rb).
  destruct (nth_error l (n + 2)) as [c|] eqn:E2; [|rewrite (forall2_nth_none _ _ _ F _ E2); constructor].
  destruct (forall2_nth _ _ _ F _ _ E2) as (c' & -> & Rc). repeat constructor; assumption.
Qed.
Lemma triangles_short {A} (l : list A) : (length l < 3)%nat -> triangles l = [].
Proof. destruct l as [|a [|b [|c l]]]; intros H; try reflexivity. cbn in H. lia. Qed.
Lemma triangles_in {A} (l : list A) t x : In t (triangles l) -> In x t -> In x l.
Proof.
  unfold triangles. intros H Hx. apply in_flat_map in H as (n & _ & H).
  destruct (nth_error l 0) as [a|] eqn:E0; [|destruct H]. destruct (nth_error l (n + 1)) as [b|] eqn:E1; [|destruct H].
  destruct (nth_error l (n + 2)) as [c|] eqn:E2; [|destruct H]. destruct H as [<-|[]].
  destruct Hx as [<-|[<-|[<-|[]]]]; eapply nth_error_In; eassumption.
Qed.
Lemma fan_from_flat a r : fan_from a r =
  flat_map (fun n => match nth_error r n, nth_error r (n + 1) with Some b, Some c => [[a; b; c]] | _, _ => [] end) (seq 0 (length r)).
Proof.
  induction r as [|b r IH]; [reflexivity|]. cbn [length seq flat_map]. rewrite <- seq_shift, flat_map_concat_map, map_map, <- flat_map_concat_map.
  cbn [nth_error Nat.add]. destruct r as [|c r]; [reflexivity|]. change (fan_from a (b :: c :: r)) with ([a; b; c] :: fan_from a (c :: r)).
  rewrite IH. reflexivity.
Qed.
Lemma fan_triangles l : fan l = triangles l.
Proof.
  destruct l as [|a r]; [reflexivity|]. unfold fan. rewrite fan_from_flat. unfold triangles. cbn [length]. rewrite seq_S, flat_map_app.
  cbn [flat_map Nat.add]. rewrite app_nil_r. 
  replace (nth_error (a :: r) (length r + 1)) with (@None Z) by (symmetry; apply nth_error_None; cbn; lia). cbn [nth_error].
  rewrite app_nil_r. apply flat_map_ext. intros n. replace (n + 1)%nat with (S n) by lia. replace (n + 2)%nat with (S (S n)) by lia.
  cbn [nth_error]. reflexivity.
Qed.

Section Proofs.
Context {T : Type} {N : Num T}.
Variables (scale centi : T).

Lemma to_pmx_scaled : to_pmx (T := T) scale = scaled scale.
Proof. reflexivity. Qed.

(** *** Weights *)

Definition push (e : Z * T) (x : pvert T) : pvert T :=
  if (4 <=? length (pvWeights x))%nat then x
  else mkPV (pvPos x) (pvNormal x) (pvUV x) (pvBones x ++ [fst e]) (pvWeights x ++ [snd e]).

Lemma add_weight_zidx bi w vs id j : zidx (add_weight centi bi w vs id) j =
  if j =? id then option_map (push (bi, nmul w centi)) (zidx vs j) else zidx vs j.
Proof.
  unfold add_weight, push. destruct (zidx vs id) as [v|] eqn:E.
  - destruct (4 <=? length (pvWeights v))%nat eqn:L.
    + destruct (Z.eqb_spec j id) as [->|]; [|reflexivity]. rewrite E. cbn [option_map]. rewrite L. reflexivity.
    + rewrite list_set_zidx by (eapply zidx_bound; exact E). destruct (Z.eqb_spec j id) as [->|]; [|reflexivity].
      rewrite E. cbn [option_map]. rewrite L. reflexivity.
  - destruct (Z.eqb_spec j id) as [->|]; [|reflexivity]. rewrite E. reflexivity.
Qed.
Lemma add_weight_length bi w vs id : length (add_weight centi bi w vs id) = length vs.
Proof. unfold add_weight. destruct (zidx vs id); [|reflexivity]. destruct (4 <=? _)%nat; [reflexivity|apply list_set_length]. Qed.

Lemma add_weights_zidx bi w ids : forall vs j, NoDup ids ->
  zidx (fold_left (add_weight centi bi w) ids vs) j =
  if existsb (Z.eqb j) ids then option_map (push (bi, nmul w centi)) (zidx vs j) else zidx vs j.
Proof.
  induction ids as [|id ids IH]; intros vs j H; [reflexivity|]. inversion H; subst. cbn [fold_left existsb]. rewrite IH by assumption.
  rewrite !add_weight_zidx. destruct (Z.eqb_spec j id) as [->|]; [|reflexivity].
  replace (existsb (Z.eqb id) ids) with false; [reflexivity|]. symmetry. apply not_true_is_false. intros C.
  apply existsb_exists in C as (x & C & D). apply Z.eqb_eq in D. subst. contradiction.
Qed.
Lemma add_weights_length bi w ids : forall vs, length (fold_left (add_weight centi bi w) ids vs) = length vs.
Proof. induction ids as [|id ids IH]; intros vs; [reflexivity|]. cbn [fold_left]. rewrite IH. apply add_weight_length. Qed.

(** One stored weight is an event. *)
Definition bone_events (o : object T) (bi : Z) (b : bone T) : list (Z * (Z * T)) :=
  flat_map (fun bw : Z * list (Z * T) => if fst bw =? oUID o
                                        then map (fun e => (get_vertex_index_by_id o (fst e), (bi, snd e))) (snd bw) else []) (bWeights b).
Fixpoint events (o : object T) (bi : Z) (bones : list (bone T)) : list (Z * (Z * T)) :=
  match bones with [] => [] | b :: r => bone_events o bi b ++ events o (bi + 1) r end.
Definition apply_event (vm : list (Z * Z)) (vs : list (pvert T)) (e : Z * (Z * T)) : list (pvert T) :=
  fold_left (add_weight centi (fst (snd e)) (snd (snd e))) (vm_get vm (fst e)) vs.

Lemma bone_step_events o vm bi vs b : bone_step centi o vm bi vs b = fold_left (apply_event vm) (bone_events o bi b) vs.
Proof.
  unfold bone_step, bone_events. rewrite fold_flat. apply fold_ext. intros c bw. destruct (fst bw =? oUID o); [|reflexivity].
  rewrite fold_map. reflexivity.
Qed.
Lemma set_weights_events o vm bones : forall bi vs, set_weights centi o vm bi bones vs = fold_left (apply_event vm) (events o bi bones) vs.
Proof.
  induction bones as [|b bones IH]; intros bi vs; [reflexivity|]. cbn [set_weights events]. rewrite fold_left_app, IH, bone_step_events. reflexivity.
Qed.

Lemma vm_get_kmap i keys v : vm_get (kmap i keys) v = map snd (filter (fun e => fst e =? v) (kmap i keys)).
Proof. reflexivity. Qed.
Lemma nodup_map_filter {A B} (f : A -> B) (q : A -> bool) l : NoDup (map f l) -> NoDup (map f (filter q l)).
Proof.
  induction l as [|x l IH]; intros H; [constructor|]. cbn [map filter] in *. inversion H; subst.
  destruct (q x); [|auto]. cbn [map]. constructor; [|auto]. intros C. apply H2. apply in_map_iff in C as (y & <- & C).
  apply filter_In in C as (C & _). apply in_map. exact C.
Qed.

Definition pushes (v : Z) (es : list (Z * (Z * T))) (x : pvert T) : pvert T :=
  fold_left (fun x e => if fst e =? v then push (fst (snd e), nmul (snd (snd e)) centi) x else x) es x.

Lemma apply_events_zidx keys i es : forall vs j, 0 <= i ->
  zidx (fold_left (apply_event (kmap i keys)) es vs) j =
  if i <=? j then match zidx keys (j - i) with Some v => option_map (pushes v es) (zidx vs j) | None => zidx vs j end else zidx vs j.
Proof.
  induction es as [|e es IH]; intros vs j Hi; cbn [fold_left].
  - destruct (i <=? j); [|reflexivity]. destruct (zidx keys (j - i)); [|reflexivity]. destruct (zidx vs j); reflexivity.
  - rewrite IH by exact Hi. unfold apply_event.
    rewrite !add_weights_zidx by (apply nodup_map_filter, kmap_nodup). rewrite vm_get_kmap.
    assert (K : existsb (Z.eqb j) (map snd (filter (fun x => fst x =? fst e) (kmap i keys))) = true <-> i <= j /\ zidx keys (j - i) = Some (fst e)).
    { rewrite existsb_exists. split.
      - intros (x & A & B). apply Z.eqb_eq in B. subst x. apply in_map_iff in A as ([v k] & <- & A). apply filter_In in A as (A & B).
        cbn [fst] in B. apply Z.eqb_eq in B. subst v. apply kmap_entries in A. exact A.
      - intros A. exists j. split; [|apply Z.eqb_refl]. apply in_map_iff. exists (fst e, j). split; [reflexivity|].
        apply filter_In. split; [apply kmap_entries; exact A|apply Z.eqb_refl]. }
    destruct (existsb (Z.eqb j) _) eqn:Ex.
    + apply proj1 in K. destruct (K eq_refl) as (K1 & K2). destruct (Z.leb_spec i j); [|lia]. rewrite K2.
      destruct (zidx vs j); [|reflexivity]. cbn [option_map]. unfold pushes. cbn [fold_left]. rewrite Z.eqb_refl. reflexivity.
    + destruct (Z.leb_spec i j) as [L|L]; [|reflexivity]. destruct (zidx keys (j - i)) as [v|] eqn:Ev; [|reflexivity].
      destruct (zidx vs j); [|reflexivity]. cbn [option_map]. unfold pushes. cbn [fold_left].
      destruct (Z.eqb_spec (fst e) v) as [E|]; [|reflexivity]. exfalso. subst v. destruct K as (_ & K). discriminate K. auto.
Qed.
Lemma apply_events_length vm es : forall vs, length (fold_left (apply_event vm) es vs) = length vs.
Proof. induction es as [|e es IH]; intros vs; [reflexivity|]. cbn [fold_left]. rewrite IH. apply add_weights_length. Qed.

Lemma pushes_first4 v es : forall x acc, pvBones x = map fst acc -> pvWeights x = map snd acc -> (length acc <= 4)%nat ->
  let l := map (fun e => (fst (snd e), nmul (snd (snd e)) centi)) (filter (fun e => fst e =? v) es) in
  let y := pushes v es x in
  pvPos y = pvPos x /\ pvNormal y = pvNormal x /\ pvUV y = pvUV x /\
  pvBones y = map fst (firstn 4 (acc ++ l)) /\ pvWeights y = map snd (firstn 4 (acc ++ l)).
Proof.
  induction es as [|e es IH]; intros x acc B W L; cbn zeta.
  - cbn [filter map pushes fold_left]. rewrite app_nil_r, firstn_all2 by lia. auto.
  - change (pushes v (e :: es) x) with (pushes v es (if fst e =? v then push (fst (snd e), nmul (snd (snd e)) centi) x else x)).
    cbn [filter]. destruct (fst e =? v); [|apply IH; assumption].
    cbn [map]. set (a := (fst (snd e), nmul (snd (snd e)) centi)).
    assert (P : push a x = if (4 <=? length acc)%nat then x
                else mkPV (pvPos x) (pvNormal x) (pvUV x) (pvBones x ++ [fst a]) (pvWeights x ++ [snd a]))
      by (unfold push; rewrite W, map_length; reflexivity).
    rewrite P. destruct (Nat.leb_spec 4 (length acc)) as [G|G].
    + assert (length acc = 4)%nat as Hl by lia. specialize (IH x acc B W L). cbn zeta in IH.
      replace (firstn 4 (acc ++ a :: map (fun e => (fst (snd e), nmul (snd (snd e)) centi)) (filter (fun e => fst e =? v) es)))
        with (firstn 4 (acc ++ map (fun e => (fst (snd e), nmul (snd (snd e)) centi)) (filter (fun e => fst e =? v) es)))
        by (rewrite !firstn_app, Hl, Nat.sub_diag; reflexivity). exact IH.
    + specialize (IH (mkPV (pvPos x) (pvNormal x) (pvUV x) (pvBones x ++ [fst a]) (pvWeights x ++ [snd a])) (acc ++ [a])).
      cbn [pvPos pvNormal pvUV pvBones pvWeights] in IH. rewrite B, W, !map_app in IH. specialize (IH eq_refl eq_refl).
      rewrite app_length in IH. specialize (IH ltac:(cbn; lia)). cbn zeta in IH. rewrite <- app_assoc in IH. cbn [app] in IH.
      rewrite B, W. exact IH.
Qed.

Lemma events_weights o bones v : forall bi, 
  map (fun e => (fst (snd e), nmul (snd (snd e)) centi)) (filter (fun e => fst e =? v) (events o (Z.of_nat bi) bones)) =
  flat_map (fun ib => flat_map (fun bw : Z * list (Z * T) =>
      if fst bw =? oUID o
      then map (fun e => (Z.of_nat (fst ib), nmul (snd e) centi))
               (filter (fun e => get_vertex_index_by_id o (fst e) =? v) (snd bw))
      else []) (bWeights (snd ib))) (combine (seq bi (length bones)) bones).
Proof.
  induction bones as [|b bones IH]; intros bi; [reflexivity|]. cbn [events length seq combine flat_map fst snd].
  rewrite filter_app, map_app. f_equal.
  - unfold bone_events. induction (bWeights b) as [|bw l IHl]; [reflexivity|]. cbn [flat_map]. rewrite filter_app, map_app, IHl. f_equal.
    destruct (fst bw =? oUID o); [|reflexivity]. induction (snd bw) as [|e r IHr]; [reflexivity|]. cbn [map filter fst snd].
    destruct (get_vertex_index_by_id o (fst e) =? v); cbn [map fst snd]; rewrite IHr; reflexivity.
  - replace (Z.of_nat bi + 1) with (Z.of_nat (S bi)) by lia. apply IH.
Qed.

(** *** Morph offsets *)

Definition offset_in (ms : list (pmorph T)) (name : string) (e : Z * vec3 T) : Prop :=
  exists m, In m ms /\ phName m = name /\ In e (phVerts m).

Lemma add_offset_names ms name e : map phName (add_offset ms name e) = map (@phName T) ms.
Proof.
  unfold add_offset. destruct (last_index _ ms) as [i|] eqn:E; [|reflexivity].
  apply last_index_Some in E as (a & m & b & -> & <- & _ & _). rewrite nth_error_app2, Nat.sub_diag by lia. cbn [nth_error].
  rewrite list_set_mid, !map_app. reflexivity.
Qed.
Lemma add_offset_in ms name e name' e' : offset_in (add_offset ms name e) name' e' <->
  offset_in ms name' e' \/ In name (map phName ms) /\ name' = name /\ e' = e.
Proof.
  unfold add_offset. destruct (last_index _ ms) as [i|] eqn:E.
  - apply last_index_Some in E as (a & m & b & -> & <- & Q & _). rewrite nth_error_app2, Nat.sub_diag by lia. cbn [nth_error].
    apply String.eqb_eq in Q. rewrite list_set_mid. split.
    + intros (x & Hx & Hn & He). apply in_app_iff in Hx as [Hx|[<-|Hx]].
      * left. exists x. rewrite in_app_iff. auto.
      * cbn [phName phVerts] in Hn, He. apply in_app_iff in He as [He|[<-|[]]].
        -- left. exists m. rewrite in_app_iff. cbn. auto.
        -- right. split; [|split; [congruence|reflexivity]]. rewrite <- Q. apply in_map. rewrite in_app_iff. cbn. auto.
      * left. exists x. rewrite in_app_iff. cbn. auto.
    + intros [(x & Hx & Hn & He)|(_ & -> & ->)].
      * apply in_app_iff in Hx as [Hx|[<-|Hx]].
        -- exists x. rewrite in_app_iff. auto.
        -- exists (mkPMorph (phName m) (phVerts m ++ [e]) (phUVs m)). rewrite in_app_iff. split; [right; left; reflexivity|].
           split; [exact Hn|]. cbn [phVerts]. rewrite in_app_iff. auto.
        -- exists x. rewrite in_app_iff. cbn. auto.
      * exists (mkPMorph (phName m) (phVerts m ++ [e]) (phUVs m)). rewrite in_app_iff. split; [right; left; reflexivity|].
        split; [exact Q|]. cbn [phVerts]. rewrite in_app_iff. right. left. reflexivity.
  - split; [auto|]. intros [H|(H & _)]; [exact H|]. exfalso. apply last_index_None in E. apply in_map_iff in H as (m & <- & H).
    rewrite Forall_forall in E. specialize (E m H). rewrite String.eqb_refl in E. discriminate.
Qed.

Definition target_vertex (objs : list (object T)) (t : string) (v : Z) (q : vec3 T) : Prop :=
  exists o, named objs t o /\ zidx (oVerts o) v = Some q.
Definition flat_offset (q pos : vec3 T) : vec3 T :=
  mkV3 (nsub (vx (scaled scale q)) (vx pos)) (nsub (vy (scaled scale q)) (vy pos)) nzero.

Lemma named_index (objs : list (object T)) t i o : last_index (fun o => String.eqb (oName o) t) objs = Some i -> nth_error objs i = Some o -> named objs t o.
Proof.
  intros E Ho. apply last_index_Some in E as (a & x & b & -> & <- & Q & F). rewrite nth_error_app2, Nat.sub_diag in Ho by lia.
  injection Ho as <-. exists a, b. split; [reflexivity|]. split; [apply String.eqb_eq; exact Q|].
  eapply Forall_impl; [|exact F]. intros y. cbn. apply String.eqb_neq.
Qed.
Lemma named_unique {os : list (object T)} {t o o'} : named os t o -> named os t o' -> o = o'.
Proof.
  intros (a & b & E & Q & F) (a' & b' & E' & Q' & F'). subst os.
  revert a' E'. induction a as [|x a IH]; intros [|x' a'] E'; cbn in E'.
  - injection E' as -> _. reflexivity.
  - injection E' as <- ->. rewrite Forall_forall in F. exfalso. apply (F o'); [|exact Q']. apply in_app_iff. right. left. reflexivity.
  - injection E' as -> <-. rewrite Forall_forall in F'. exfalso. apply (F' o); [|exact Q]. apply in_app_iff. right. left. reflexivity.
  - injection E' as -> E'. eapply IH. exact E'.
Qed.

Lemma target_offsets_names objs targets v id pos : forall ms, map phName (target_offsets scale objs targets v id pos ms) = map phName ms.
Proof.
  induction targets as [|t targets IH]; intros ms; [reflexivity|]. cbn [target_offsets]. rewrite IH.
  destruct (last_index _ objs); [|reflexivity]. destruct (option_map _ _); [|reflexivity]. destruct (zidx _ v); [|reflexivity].
  apply add_offset_names.
Qed.
Lemma target_offsets_in objs targets v id pos : forall ms name e, offset_in (target_offsets scale objs targets v id pos ms) name e <->
  offset_in ms name e \/ In name targets /\ In name (map phName ms) /\ exists q, target_vertex objs name v q /\ e = (id, flat_offset q pos).
Proof.
  induction targets as [|t targets IH]; intros ms name e; cbn [target_offsets].
  - split; [auto|]. intros [H|([] & _)]. exact H.
  - rewrite IH. destruct (last_index (fun o => String.eqb (oName o) t) objs) as [i|] eqn:E.
    + destruct (nth_error objs i) as [o|] eqn:Eo.
      2:{ exfalso. apply last_index_Some in E as (a & x & b & -> & <- & _ & _). rewrite nth_error_app2, Nat.sub_diag in Eo by lia. discriminate. }
      cbn [option_map]. pose proof (named_index _ _ _ _ E Eo) as Hn.
      destruct (zidx (oVerts o) v) as [q|] eqn:Eq.
      * rewrite add_offset_names, add_offset_in. fold (flat_offset q pos). cbn [In]. split.
        -- intros [[H|(H1 & H2 & H3)]|(H1 & H2 & H3)]; [auto| |right; auto].
           subst name e. right. split; [auto|]. split; [exact H1|]. exists q. split; [exists o; auto|reflexivity].
        -- intros [H|([<-|H1] & H2 & q' & (o' & Hn' & Hq) & H4)]; [auto| |].
           ++ left. right. split; [exact H2|]. split; [reflexivity|]. assert (o' = o) as -> by (eapply named_unique; eassumption). rewrite H4. assert (q' = q) as -> by congruence. reflexivity.
           ++ right. split; [exact H1|]. split; [exact H2|]. exists q'. split; [exists o'; auto|exact H4].
      * cbn [In]. split.
        -- intros [H|(H1 & H2 & H3)]; auto.
        -- intros [H|([<-|H1] & H2 & H3)]; [auto| |right; auto].
           destruct H3 as (q' & (o' & Hn' & Hq) & _). exfalso. assert (o' = o) as -> by (eapply named_unique; eassumption). congruence.
    + cbn [In]. split.
      * intros [H|(H1 & H2 & H3)]; auto.
      * intros [H|([<-|H1] & H2 & H3)]; [auto| |right; auto]. destruct H3 as (q' & (o' & (a & b & -> & Q & _) & Hq) & _). exfalso.
        apply last_index_None in E. rewrite Forall_forall in E. specialize (E o'). cbn in E. rewrite Q, String.eqb_refl in E.
        discriminate E. apply in_app_iff. right. left. reflexivity.
Qed.

(** *** One object *)

Section Object.
Variables (objs : list (object T)) (targets : list string) (o : object T) (normals : list (vec3 T)) (vs0 : list (pvert T)).

Fixpoint kk (i : Z) (srcs : list (vkey (T := T))) : list (vkey (T := T) * Z) :=
  match srcs with [] => [] | s :: r => (s, i) :: kk (i + 1) r end.
Lemma kk_snoc srcs : forall i s, kk i (srcs ++ [s]) = kk i srcs ++ [(s, i + Z.of_nat (length srcs))].
Proof.
  induction srcs as [|a srcs IH]; intros i s; cbn [kk app length]; [rewrite Z.add_0_r; reflexivity|]. rewrite IH.
  replace (i + Z.of_nat (S (length srcs))) with (i + 1 + Z.of_nat (length srcs)) by lia. reflexivity.
Qed.
Lemma kk_find srcs : forall i k id, find_key (kk i srcs) k = Some id -> i <= id /\ exists s, zidx srcs (id - i) = Some s /\ vkey_eqb s k = true.
Proof.
  induction srcs as [|a srcs IH]; intros i k id; cbn [kk find_key]; [discriminate|]. destruct (vkey_eqb a k) eqn:E.
  - intros H. injection H as <-. split; [lia|]. exists a. rewrite Z.sub_diag. split; [reflexivity|exact E].
  - intros H. apply IH in H as (A & s & B & C). split; [lia|]. exists s. split; [|exact C]. apply zidx_Some in B as (B & D). apply zidx_Some.
    split; [lia|]. replace (Z.to_nat (id - i)) with (S (Z.to_nat (id - (i + 1)))) by lia. exact D.
Qed.

Definition fresh (s : vkey (T := T)) (x : pvert T) : Prop :=
  exists q n, zidx (oVerts o) (fst s) = Some q /\ zidx normals (fst s) = Some n /\ x = mkPV (scaled scale q) n (snd s) [] [].

(** The offsets an emitted vertex must have. *)
Definition offsets_done (ms : list (pmorph T)) (v id : Z) : Prop :=
  forall t b q, In t targets -> zidx (oVerts o) v = Some b -> target_vertex objs t v q ->
  In t (map phName ms) -> offset_in ms t (id, flat_offset q (scaled scale b)).
(** Where offsets come from. *)
Definition offset_sound (srcs : list (vkey (T := T))) (ms0 ms : list (pmorph T)) : Prop := forall t e, offset_in ms t e -> offset_in ms0 t e \/
  exists j s b q, zidx srcs j = Some s /\ In t targets /\ zidx (oVerts o) (fst s) = Some b /\ target_vertex objs t (fst s) q /\
    e = (Z.of_nat (length vs0) + j, flat_offset q (scaled scale b)).

Record St (ms0 : list (pmorph T)) (srcs : list (vkey (T := T))) (st : mstate T) : Prop := mkSt {
  st_verts : exists news, msVerts st = vs0 ++ news /\ Forall2 fresh srcs news;
  st_keys : msKeys st = kk (Z.of_nat (length vs0)) srcs;
  st_vmap : msVmap st = kmap (Z.of_nat (length vs0)) (map fst srcs);
  st_names : map phName (msMorphs st) = map phName ms0;
  st_more : forall t e, offset_in ms0 t e -> offset_in (msMorphs st) t e;
  st_done : forall j s, zidx srcs j = Some s -> offsets_done (msMorphs st) (fst s) (Z.of_nat (length vs0) + j);
  st_sound : offset_sound srcs ms0 (msMorphs st) }.

Lemma st_len ms0 srcs st : St ms0 srcs st -> length (msVerts st) = (length vs0 + length srcs)%nat.
Proof. intros I. destruct (st_verts _ _ _ I) as (news & -> & F). rewrite app_length, (forall2_len _ _ _ F). reflexivity. Qed.

(** What a corner is given. *)
Definition corner_id (srcs : list (vkey (T := T))) (s : vkey (T := T)) (id : Z) : Prop :=
  Z.of_nat (length vs0) <= id /\ exists s', zidx srcs (id - Z.of_nat (length vs0)) = Some s' /\ fst s' = fst s /\ same_uv (snd s') (snd s).
Lemma corner_id_mono srcs new s id : corner_id srcs s id -> corner_id (srcs ++ new) s id.
Proof. intros (A & s' & B & C). split; [exact A|]. exists s'. split; [apply zidx_app1; exact B|exact C]. Qed.

Lemma conv_corner_spec ms0 f i v st id st' srcs : St ms0 srcs st ->
  conv_corner scale objs targets o normals f i v st = Some (id, st') ->
  exists new, St ms0 (srcs ++ new) st' /\ corner_id (srcs ++ new) (v, corner_uv f i) id.
Proof.
  intros I E. unfold conv_corner in E. destruct (find_key (msKeys st) (v, corner_uv f i)) as [k|] eqn:Ef.
  - injection E as <- <-. exists []. rewrite app_nil_r. split; [exact I|]. rewrite (st_keys _ _ _ I) in Ef.
    apply kk_find in Ef as (A & s & B & C). split; [exact A|]. exists s. split; [exact B|].
    unfold vkey_eqb in C. apply andb_true_iff in C as (C & C3). apply andb_true_iff in C as (C1 & C2). apply Z.eqb_eq in C1.
    split; [exact C1|]. right. split; assumption.
  - destruct (zidx (oVerts o) v) as [q|] eqn:Eq; [|discriminate]. destruct (zidx normals v) as [n|] eqn:En; [|discriminate].
    injection E as <- <-. set (s := (v, corner_uv f i)). exists [s].
    pose proof (st_len _ _ _ I) as L. destruct (st_verts _ _ _ I) as (news & Ev & F).
    split.
    + constructor; cbn [msVerts msKeys msVmap msMorphs].
      * exists (news ++ [mkPV (to_pmx scale q) n (corner_uv f i) [] []]). rewrite Ev, app_assoc. split; [reflexivity|].
        apply forall2_snoc; [exact F|]. exists q, n. auto.
      * rewrite kk_snoc, (st_keys _ _ _ I). unfold s. repeat f_equal. lia.
      * rewrite map_app. cbn [map]. rewrite kmap_snoc, (st_vmap _ _ _ I), map_length. unfold s. cbn [fst]. repeat f_equal. lia.
      * rewrite target_offsets_names. apply (st_names _ _ _ I).
      * intros t e He. apply target_offsets_in. left. apply (st_more _ _ _ I). exact He.
      * intros j s' Hj t b q' Ht Hb Hq Hn. rewrite target_offsets_names in Hn. apply target_offsets_in.
        rewrite zidx_snoc in Hj. destruct (Z.eqb_spec j (Z.of_nat (length srcs))) as [->|Ne].
        -- injection Hj as <-. right. split; [exact Ht|]. split; [exact Hn|]. exists q'. unfold s in Hq, Hb. cbn [fst] in Hq, Hb.
           split; [exact Hq|]. rewrite to_pmx_scaled. assert (b = q) as -> by congruence. f_equal. lia.
        -- left. apply (st_done _ _ _ I j s' Hj); assumption.
      * intros t e He. apply target_offsets_in in He as [He|(A & B & q' & C & ->)].
        -- destruct (st_sound _ _ _ I t e He) as [H|(j & s' & b & q' & H1 & H2)]; [auto|]. right.
           exists j, s', b, q'. split; [apply zidx_app1; exact H1|exact H2].
        -- right. exists (Z.of_nat (length srcs)), s, q, q'. split; [apply zidx_last|]. split; [exact A|]. split; [exact Eq|].
           split; [exact C|]. rewrite to_pmx_scaled. f_equal. lia.
    + split; [lia|]. exists s. replace (Z.of_nat (length (msVerts st)) - Z.of_nat (length vs0)) with (Z.of_nat (length srcs)) by lia.
      split; [apply zidx_last|]. split; [reflexivity|]. left. reflexivity.
Qed.

Lemma conv_corners_spec2 ms0 f verts : forall i st ids st' srcs, St ms0 srcs st ->
  conv_corners scale objs targets o normals f i verts st = Some (ids, st') ->
  exists new, St ms0 (srcs ++ new) st' /\
    Forall2 (fun c id => corner_id (srcs ++ new) c id) (map (fun j => (nth j verts 0, corner_uv f (i + j))) (seq 0 (length verts))) ids.
Proof.
  induction verts as [|v verts IH]; intros i st ids st' srcs I E; cbn [conv_corners] in E.
  - injection E as <- <-. exists []. rewrite app_nil_r. split; [exact I|constructor].
  - destruct (conv_corner scale objs targets o normals f i v st) as [[id st1]|] eqn:E1; [|discriminate].
    destruct (conv_corners scale objs targets o normals f (S i) verts st1) as [[ids1 st2]|] eqn:E2; [|discriminate].
    injection E as <- <-. destruct (conv_corner_spec _ _ _ _ _ _ _ _ I E1) as (n1 & I1 & C1).
    destruct (IH _ _ _ _ _ I1 E2) as (n2 & I2 & C2). exists (n1 ++ n2). rewrite app_assoc. split; [exact I2|].
    cbn [length seq map nth]. rewrite Nat.add_0_r. constructor; [apply corner_id_mono; exact C1|].
    rewrite <- seq_shift, map_map. erewrite map_ext; [exact C2|]. intros j. cbn [nth]. do 2 f_equal. lia.
Qed.

Lemma corner_uv_nth f i : corner_uv f i = nth i (fUVs f) (mkV2 nzero nzero).
Proof.
  unfold corner_uv. destruct (nth_error (fUVs f) i) as [u|] eqn:E; [symmetry; apply nth_error_nth; exact E|].
  symmetry. apply nth_overflow. apply nth_error_None. exact E.
Qed.

Lemma obj_faces_spec ms0 mi fs : forall st out st' srcs, St ms0 srcs st ->
  obj_faces scale objs targets o normals mi fs st = Some (out, st') ->
  exists new, St ms0 (srcs ++ new) st' /\
    Forall2 (Forall2 (fun (c : corner) id => corner_id (srcs ++ new) (snd (fst c), snd c) id))
      (flat_map (fun f => if fMaterial f =? mi then triangles (corners o f) else []) fs) out.
Proof.
  induction fs as [|f fs IH]; intros st out st' srcs I E; cbn [obj_faces] in E.
  - injection E as <- <-. exists []. rewrite app_nil_r. split; [exact I|constructor].
  - cbn [flat_map]. destruct (length (fVerts f) <? 3)%nat eqn:El; cbn [orb] in E.
    + replace (if fMaterial f =? mi then triangles (corners o f) else []) with (@nil (list (corner (T := T)))).
      2:{ symmetry. destruct (fMaterial f =? mi); [|reflexivity]. apply triangles_short. unfold corners. rewrite map_length, seq_length.
          apply Nat.ltb_lt. exact El. }
      apply (IH _ _ _ _ I E).
    + destruct (fMaterial f =? mi) eqn:Em; cbn [negb] in E; [|apply (IH _ _ _ _ I E)].
      destruct (conv_corners scale objs targets o normals f 0 (fVerts f) st) as [[ids st1]|] eqn:E1; [|discriminate].
      destruct (obj_faces scale objs targets o normals mi fs st1) as [[out1 st2]|] eqn:E2; [|discriminate].
      injection E as <- <-. destruct (conv_corners_spec2 _ _ _ _ _ _ _ _ I E1) as (n1 & I1 & C1).
      destruct (IH _ _ _ _ I1 E2) as (n2 & I2 & C2). exists (n1 ++ n2). rewrite app_assoc. split; [exact I2|].
      apply Forall2_app; [|exact C2]. rewrite fan_triangles. apply triangles_forall2. unfold corners.
      apply forall2_map_l. apply (proj1 (forall2_map_l _ _ _ _)) in C1. eapply forall2_weak; [|exact C1]. cbn [fst snd]. intros j id H.
      rewrite Nat.add_0_l, corner_uv_nth in H. apply corner_id_mono. exact H.
Qed.
End Object.

(** *** All objects *)

Variables (objs : list (object T)) (sets : list target_list) (bones : list (bone T)).

Definition good (vs : list (pvert T)) (ms : list (pmorph T)) (c : corner (T := T)) (id : Z) : Prop :=
  let '(o, v, uv) := c in
  exists x q ns, zidx vs id = Some x /\ zidx (oVerts o) v = Some q /\ smooth_normals o = Some ns /\
    pvPos x = scaled scale q /\ zidx ns v = Some (pvNormal x) /\ same_uv (pvUV x) uv /\
    pvBones x = map fst (firstn 4 (weights_of centi o bones v)) /\ pvWeights x = map snd (firstn 4 (weights_of centi o bones v)) /\
    forall t q', In t (base_targets sets (oName o)) -> target_vertex objs t v q' -> In t (map phName ms) ->
      offset_in ms t (id, flat_offset q' (scaled scale q)).
Definition later (vs vs' : list (pvert T)) : Prop := forall id x, zidx vs id = Some x -> zidx vs' id = Some x.
Definition more (ms ms' : list (pmorph T)) : Prop :=
  map phName ms' = map phName ms /\ forall t e, offset_in ms t e -> offset_in ms' t e.
Lemma good_mono vs ms vs' ms' c id : later vs vs' -> more ms ms' -> good vs ms c id -> good vs' ms' c id.
Proof.
  intros L (M1 & M2). destruct c as [[o v] uv]. intros (x & q & ns & A1 & A2 & A3 & A4 & A5 & A6 & A7 & A8 & A9).
  exists x, q, ns. do 8 (split; [first [assumption|apply L; assumption]|]). intros t q' H1 H2 H3. apply M2. apply A9; [exact H1|exact H2|].
  rewrite <- M1. exact H3.
Qed.

Definition vert_ok (x : pvert T) : Prop := exists ws : list (Z * T),
  pvBones x = map fst ws /\ pvWeights x = map snd ws /\ (length ws <= 4)%nat /\ Forall (fun b => 0 <= b < Z.of_nat (length bones)) (map fst ws).

Lemma weights_of_bound o v : Forall (fun b => 0 <= b < Z.of_nat (length bones)) (map fst (weights_of centi o bones v)).
Proof.
  apply Forall_forall. intros b H. apply in_map_iff in H as ([b' w] & <- & H). unfold weights_of in H. apply in_flat_map in H as (ib & A & B).
  apply in_flat_map in B as (bw & _ & B). destruct (fst bw =? oUID o); [|destruct B]. apply in_map_iff in B as (e & B & _). injection B as <- _.
  destruct ib as [i bn]. apply in_combine_l in A. apply in_seq in A. cbn [fst]. lia.
Qed.
Lemma forall_firstn {A} (q : A -> Prop) n : forall l, Forall q l -> Forall q (firstn n l).
Proof. induction n as [|n IH]; intros l H; [constructor|]. destruct H; cbn [firstn]; constructor; auto. Qed.

(** The vertices after the weights of an object are set. *)
Lemma object_weights o normals vs0 news srcs :
  Forall2 (fresh o normals) srcs news ->
  let vs' := set_weights centi o (kmap (Z.of_nat (length vs0)) (map fst srcs)) 0 bones (vs0 ++ news) in
  length vs' = length (vs0 ++ news) /\ later vs0 vs' /\
  forall j s, zidx srcs j = Some s -> exists q n ws, zidx (oVerts o) (fst s) = Some q /\ zidx normals (fst s) = Some n /\
    ws = firstn 4 (weights_of centi o bones (fst s)) /\
    zidx vs' (Z.of_nat (length vs0) + j) = Some (mkPV (scaled scale q) n (snd s) (map fst ws) (map snd ws)).
Proof.
  intros F vs'. unfold vs'. rewrite set_weights_events. split; [apply apply_events_length|]. split.
  - intros id x H. rewrite apply_events_zidx by lia. pose proof (zidx_bound _ _ _ H) as B. destruct (Z.leb_spec (Z.of_nat (length vs0)) id); [lia|].
    apply zidx_app1. exact H.
  - intros j s H. pose proof (zidx_bound _ _ _ H) as B. rewrite apply_events_zidx by lia.
    destruct (Z.leb_spec (Z.of_nat (length vs0)) (Z.of_nat (length vs0) + j)); [|lia].
    replace (Z.of_nat (length vs0) + j - Z.of_nat (length vs0)) with j by lia.
    apply zidx_Some in H as (H1 & H2). destruct (forall2_nth _ _ _ F _ _ H2) as (x & Hx & q & n & Q1 & Q2 & ->).
    assert (zidx (map fst srcs) j = Some (fst s)) as -> by (apply zidx_Some; split; [exact H1|]; apply map_nth_error; exact H2).
    assert (zidx (vs0 ++ news) (Z.of_nat (length vs0) + j) = Some (mkPV (scaled scale q) n (snd s) [] [])) as ->.
    { apply zidx_Some. split; [lia|]. replace (Z.to_nat (Z.of_nat (length vs0) + j)) with (length vs0 + Z.to_nat j)%nat by lia.
      rewrite nth_error_app2, Nat.add_comm, Nat.add_sub by lia. exact Hx. }
    exists q, n, (firstn 4 (weights_of centi o bones (fst s))). split; [exact Q1|]. split; [exact Q2|]. split; [reflexivity|].
    cbn [option_map]. f_equal.
    destruct (pushes_first4 (fst s) (events o 0 bones) (mkPV (scaled scale q) n (snd s) [] []) [] eq_refl eq_refl ltac:(cbn; lia))
      as (P1 & P2 & P3 & P4 & P5).
    cbn [app] in P4, P5. pose proof (events_weights o bones (fst s) 0) as E. change (Z.of_nat 0) with 0 in E. rewrite E in P4, P5.
    fold (weights_of centi o bones (fst s)) in P4, P5. destruct (pushes _ _ _) as [p1 p2 p3 p4 p5]. cbn [pvPos pvNormal pvUV pvBones pvWeights] in *.
    subst. reflexivity.
Qed.

Definition sound (os : list (object T)) (ms vs' : _) (ms' : list (pmorph T)) : Prop := forall t e, offset_in ms' t e -> offset_in ms t e \/
  exists o v b q x id, In o os /\ exported sets o = true /\ In t (base_targets sets (oName o)) /\ zidx (oVerts o) v = Some b /\
    target_vertex objs t v q /\ zidx (A := pvert T) vs' id = Some x /\ pvPos x = scaled scale b /\ e = (id, flat_offset q (scaled scale b)).

Lemma exported_eq (o : object T) : negb (oVisible o) || is_target sets (oName o) = negb (exported sets o).
Proof.
  unfold exported, is_target. destruct (oVisible o); cbn [negb orb andb]; [|reflexivity]. rewrite negb_involutive.
  induction sets as [|s r IH]; [reflexivity|]. cbn [existsb]. rewrite IH. f_equal.
  induction (tlTargets s) as [|t l IHl]; [reflexivity|]. cbn [existsb]. rewrite IHl, String.eqb_sym. reflexivity.
Qed.

Lemma mat_objects_spec mi os : forall vs ms fs vs' ms',
  mat_objects scale centi objs sets bones mi os vs ms = Some (fs, vs', ms') ->
  (forall id x, zidx vs id = Some x -> vert_ok x) ->
  later vs vs' /\ more ms ms' /\ (forall id x, zidx vs' id = Some x -> vert_ok x) /\ sound os ms vs' ms' /\
  Forall2 (Forall2 (good vs' ms')) (material_triangles sets os mi) fs.
Proof.
  induction os as [|o os IH]; intros vs ms fs vs' ms' E V; cbn [mat_objects] in E.
  - injection E as <- <- <-. split; [intros id x H; exact H|]. split; [split; auto|]. split; [exact V|]. split; [intros t e H; auto|constructor].
  - rewrite exported_eq in E. unfold material_triangles. cbn [filter]. destruct (exported sets o) eqn:Ex; cbn [negb] in E.
    2:{ destruct (IH _ _ _ _ _ E V) as (A & B & C & D & F). split; [exact A|]. split; [exact B|]. split; [exact C|]. split; [|exact F].
        intros t e H. destruct (D t e H) as [G|(o' & v & b & q & x & id & G1 & G)]; [auto|]. right. exists o', v, b, q, x, id.
        split; [right; exact G1|exact G]. }
    destruct (smooth_normals o) as [normals|] eqn:En; [|discriminate].
    destruct (obj_faces scale objs (base_targets sets (oName o)) o normals mi (oFaces o) (mkMS vs ms [] [])) as [[f1 st]|] eqn:E1; [|discriminate].
    destruct (mat_objects scale centi objs sets bones mi os _ _) as [[[f2 vs2] ms2]|] eqn:E2; [|discriminate]. injection E as <- <- <-.
    assert (I0 : St objs (base_targets sets (oName o)) o normals vs ms [] (mkMS vs ms [] [])).
    { constructor; cbn [msVerts msKeys msVmap msMorphs]; auto.
      - exists []. rewrite app_nil_r. split; [reflexivity|constructor].
      - intros j s H. apply zidx_bound in H. cbn in H. lia.
      - intros t e H. auto. }
    destruct (obj_faces_spec _ _ _ _ _ _ _ _ _ _ _ _ I0 E1) as (srcs & I1 & C1). cbn [app] in I1, C1.
    destruct (st_verts _ _ _ _ _ _ _ _ I1) as (news & Ev & Fn). rewrite (st_vmap _ _ _ _ _ _ _ _ I1), Ev in E2.
    destruct (object_weights o normals vs news srcs Fn) as (L1 & L2 & W). set (vs1 := set_weights _ _ _ _ _ _) in *.
    assert (M1 : more ms (msMorphs st)) by (split; [apply (st_names _ _ _ _ _ _ _ _ I1)|apply (st_more _ _ _ _ _ _ _ _ I1)]).
    assert (V1 : forall id x, zidx vs1 id = Some x -> vert_ok x).
    { intros id x H. pose proof (zidx_bound _ _ _ H) as B. rewrite L1, app_length, <- (forall2_len _ _ _ Fn) in B.
      destruct (Z.ltb_spec id (Z.of_nat (length vs))) as [Lt|Ge].
      - apply (V id). assert (exists y, zidx vs id = Some y) as (y & Hy).
        { destruct (zidx vs id) eqn:Z0; [eauto|]. apply zidx_None in Z0. lia. }
        rewrite (L2 _ _ Hy) in H. congruence.
      - assert (exists s, zidx srcs (id - Z.of_nat (length vs)) = Some s) as (s & Hs).
        { destruct (zidx srcs (id - Z.of_nat (length vs))) eqn:Z0; [eauto|]. apply zidx_None in Z0. lia. }
        destruct (W _ _ Hs) as (q & n & ws & _ & _ & Ews & Ex'). replace (Z.of_nat (length vs) + (id - Z.of_nat (length vs))) with id in Ex' by lia.
        rewrite Ex' in H. injection H as <-. exists ws. cbn [pvBones pvWeights]. split; [reflexivity|]. split; [reflexivity|]. subst ws.
        split; [rewrite firstn_length; lia|]. rewrite <- firstn_map. apply forall_firstn, weights_of_bound. }
    destruct (IH _ _ _ _ _ E2 V1) as (A & B & C & D & F).
    assert (M2 : more ms ms2).
    { destruct M1 as (m1 & m2), B as (b1 & b2). split; [congruence|auto]. }
    split; [intros id x H; apply A, L2; exact H|]. split; [exact M2|]. split; [exact C|]. split.
    + intros t e H. destruct (D t e H) as [G|(o' & v & b & q & x & id & G1 & G)].
      * destruct (st_sound _ _ _ _ _ _ _ _ I1 t e G) as [K|(j & s & b & q & K1 & K2 & K3 & K4 & ->)]; [auto|]. right.
        destruct (W _ _ K1) as (q0 & n & ws & Q1 & _ & _ & Q3). assert (q0 = b) as -> by congruence.
        exists o, (fst s), b, q, (mkPV (scaled scale b) n (snd s) (map fst ws) (map snd ws)), (Z.of_nat (length vs) + j).
        split; [left; reflexivity|]. split; [exact Ex|]. split; [exact K2|]. split; [exact K3|]. split; [exact K4|]. split; [apply A; exact Q3|].
        split; reflexivity.
      * right. exists o', v, b, q, x, id. split; [right; exact G1|exact G].
    + cbn [flat_map]. apply Forall2_app; [|exact F].
      eapply forall2_weak_in; [|exact C1]. intros tri ids Ht H. eapply forall2_weak_in; [|exact H]. intros c id Hc (H1 & s & H2 & H3 & H4).
      assert (Eo : fst (fst c) = o).
      { apply in_flat_map in Ht as (f & _ & Ht). destruct (fMaterial f =? mi); [|destruct Ht]. apply (triangles_in _ _ _ Ht) in Hc.
        unfold corners in Hc. apply in_map_iff in Hc as (i & <- & _). reflexivity. }
      destruct c as [[o' v] uv]. cbn [fst snd] in *. subst o'.
      apply (good_mono vs1 (msMorphs st)); [exact A|exact B|].
      destruct (W _ _ H2) as (q & n & ws & Q1 & Q2 & Q3 & Q4). rewrite H3 in Q1, Q2, Q3.
      replace (Z.of_nat (length vs) + (id - Z.of_nat (length vs))) with id in Q4 by lia.
      exists (mkPV (scaled scale q) n (snd s) (map fst ws) (map snd ws)), q, normals. cbn [pvPos pvNormal pvUV pvBones pvWeights]. subst ws.
      do 8 (split; [first [assumption|reflexivity]|]). intros t q' T1 T2 T3.
      pose proof (st_done _ _ _ _ _ _ _ _ I1 _ _ H2 t q q' T1) as K. rewrite H3 in K. specialize (K Q1 T2 T3).
      replace (Z.of_nat (length vs) + (id - Z.of_nat (length vs))) with id in K by lia. exact K.
Qed.

Lemma all_mats_spec names : forall mi vs ms mats fs vs' ms',
  all_mats scale centi objs sets bones mi names vs ms = Some (mats, fs, vs', ms') ->
  (forall id x, zidx vs id = Some x -> vert_ok x) ->
  later vs vs' /\ more ms ms' /\ (forall id x, zidx vs' id = Some x -> vert_ok x) /\ sound objs ms vs' ms' /\
  map pmName mats = names /\
  exists slices, fs = concat slices /\ map (@pmCount) mats = map (fun s => 3 * Z.of_nat (length s)) slices /\
    Forall2 (fun k s => Forall2 (Forall2 (good vs' ms')) (material_triangles sets objs (mi + Z.of_nat k)) s) (seq 0 (length names)) slices.
Proof.
  induction names as [|name names IH]; intros mi vs ms mats fs vs' ms' E V; cbn [all_mats] in E.
  - injection E as <- <- <- <-. split; [intros id x H; exact H|]. split; [split; auto|]. split; [exact V|]. split; [intros t e H; auto|].
    split; [reflexivity|]. exists []. split; [reflexivity|]. split; [reflexivity|constructor].
  - destruct (mat_objects scale centi objs sets bones mi objs vs ms) as [[[f1 vs1] ms1]|] eqn:E1; [|discriminate].
    destruct (all_mats scale centi objs sets bones (mi + 1) names vs1 ms1) as [[[[mats2 f2] vs2] ms2]|] eqn:E2; [|discriminate].
    injection E as <- <- <- <-. destruct (mat_objects_spec _ _ _ _ _ _ _ E1 V) as (A1 & B1 & C1 & D1 & F1).
    destruct (IH _ _ _ _ _ _ _ E2 C1) as (A2 & B2 & C2 & D2 & N2 & sl & S1 & S2 & S3).
    split; [intros id x H; apply A2, A1, H|].
    split; [destruct B1 as (m1 & m2), B2 as (b1 & b2); split; [congruence|auto]|]. split; [exact C2|]. split.
    { intros t e H. destruct (D2 t e H) as [G|G]; [|auto]. destruct (D1 t e G) as [K|(o' & v & b & q & x & id & K1 & K2 & K3 & K4 & K5 & K6 & K7)]; [auto|].
      right. exists o', v, b, q, x, id. do 5 (split; [assumption|]). split; [apply A2; exact K6|exact K7]. }
    cbn [map pmName pmCount length seq]. split; [rewrite N2; reflexivity|]. exists (f1 :: sl). cbn [concat map]. rewrite S1, S2.
    split; [reflexivity|]. split; [f_equal; lia|]. constructor.
    + rewrite Z.add_0_r. eapply forall2_weak; [|exact F1]. intros tri ids H. eapply forall2_weak; [|exact H]. intros c id G.
      eapply good_mono; [exact A2|exact B2|exact G].
    + rewrite <- seq_shift. apply forall2_map_l. eapply forall2_weak; [|exact S3]. intros k s H.
      replace (mi + Z.of_nat (S k)) with (mi + 1 + Z.of_nat k) by lia. exact H.
Qed.
End Proofs.
