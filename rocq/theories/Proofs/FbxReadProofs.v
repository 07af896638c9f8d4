(** Objects and connections of FBX documents. *)
From Coq Require Import Sorted String Ascii List ZArith Bool Lia.
From Verif.Model Require Import Num Vec Matrix Codec Fbx FbxDoc Fbx2Mqo FbxRead.
From Verif.Spec Require Import FbxReadSpec.
Import ListNotations.
Local Open Scope list_scope.
Local Open Scope Z_scope.

Lemma beq_refl a : beq a a = true.
Proof. induction a as [|x a IH]; [reflexivity|]. cbn [beq]. rewrite Z.eqb_refl. exact IH. Qed.
Lemma beq_eq a : forall b, beq a b = true -> a = b.
Proof.
  induction a as [|x a IH]; intros [|y b] H; cbn [beq] in H; try discriminate; [reflexivity|].
  apply andb_true_iff in H. destruct H as [E H]. apply Z.eqb_eq in E. subst. f_equal. auto.
Qed.
Lemma beq_iff a b : beq a b = true <-> a = b.
Proof. split; [apply beq_eq|intros ->; apply beq_refl]. Qed.

Lemma whole_int n i v d : whole_at n i v -> to_int64 d (attr_at_ (node_attrs n) i) = v.
Proof. intros (a & E & H). unfold attr_at_. rewrite E. destruct H as [ -> | [ -> | [ -> | -> ] ] ]; reflexivity. Qed.
Lemma string_str n i s : string_at n i s -> to_str (attr_at_ (node_attrs n) i) = s.
Proof. intros [E|E]; unfold attr_at_; rewrite E; reflexivity. Qed.
Lemma str_string n i c r : to_str (attr_at_ (node_attrs n) i) = c :: r -> string_at n i (c :: r).
Proof.
  unfold attr_at_, string_at. destruct (nth_error (node_attrs n) i) as [a|]; [|discriminate].
  destruct a; cbn [to_str]; intros E; try discriminate; subst; auto.
Qed.
Lemma whole_fun n i v w : whole_at n i v -> whole_at n i w -> v = w.
Proof. intros H K. rewrite <- (whole_int n i v 0 H), <- (whole_int n i w 0 K). reflexivity. Qed.
Lemma string_fun n i s t : string_at n i s -> string_at n i t -> s = t.
Proof. intros H K. rewrite <- (string_str n i s H), <- (string_str n i t K). reflexivity. Qed.
Lemma whole_long n i v : whole_at n i v -> (i < length (node_attrs n))%nat.
Proof. intros (a & E & _). apply nth_error_Some. congruence. Qed.
Lemma string_long n i s : string_at n i s -> (i < length (node_attrs n))%nat.
Proof. intros [E|E]; apply nth_error_Some; congruence. Qed.

(** ** Numbers *)
Lemma table_other l : forall ids i t v, Forall2 (fun n w => whole_at n 0 w) l ids -> ~ In v ids -> lookup v (table_of i l t) = lookup v t.
Proof.
  induction l as [|n l IH]; intros ids i t v F H; inversion F as [|? w ? ids' W F' ]; subst; [reflexivity|].
  cbn [table_of]. rewrite (IH ids') by (trivial; intros I; apply H; now right). cbn [lookup].
  rewrite (whole_int n 0 w 0 W). destruct (Z.eqb_spec v w) as [->|]; [exfalso; apply H; now left|reflexivity].
Qed.
Lemma table_at l : forall ids i t v j, Forall2 (fun n w => whole_at n 0 w) l ids -> NoDup ids -> nth_error ids j = Some v ->
  lookup v (table_of i l t) = Some (i + j)%nat.
Proof.
  induction l as [|n l IH]; intros ids i t v j F D E; inversion F as [|? w ? ids' W F']; subst; [destruct j; discriminate|].
  inversion D as [|? ? Nin D']; subst. cbn [table_of]. destruct j as [|j]; cbn [nth_error] in E.
  - injection E as ->. rewrite (table_other l ids') by assumption. cbn [lookup]. rewrite (whole_int n 0 v 0 W), Z.eqb_refl. f_equal. lia.
  - rewrite (IH ids' (S i) _ v j F' D' E). f_equal. lia.
Qed.
Lemma by_number objs ids v : Forall2 (fun n w => whole_at n 0 w) objs ids -> NoDup (0 :: ids) ->
  forall o, lookup v (table_of 1 objs [(0, 0%nat)]) = Some o <-> numbered objs v o.
Proof.
  intros F D o. inversion D as [|? ? N0 D']; subst.
  assert (P : forall i n w, nth_error objs i = Some n -> whole_at n 0 w -> nth_error ids i = Some w).
  { clear - F. intros i. revert objs ids F. induction i as [|i IH]; intros objs ids F n w E W; inversion F as [|n' w' l l' W' F']; subst; try discriminate; cbn in *.
    - injection E as ->. f_equal. eapply whole_fun; eassumption.
    - eapply IH; eassumption. }
  assert (Q : forall i w, nth_error ids i = Some w -> exists n, nth_error objs i = Some n /\ whole_at n 0 w).
  { clear - F. intros i. revert objs ids F. induction i as [|i IH]; intros objs ids F w E; inversion F as [|n' w' l l' W' F']; subst; try discriminate; cbn in *.
    - injection E as ->. eauto.
    - eapply IH; eassumption. }
  split.
  - intros L. destruct (in_dec Z.eq_dec v ids) as [I|I].
    + destruct (In_nth_error _ _ I) as [j E]. rewrite (table_at objs ids 1 _ v j F D' E) in L. injection L as <-.
      destruct (Q j v E) as (n & En & W). exact (nb_object objs j n v En W).
    + rewrite (table_other objs ids 1 _ v F I) in L. cbn [lookup] in L. destruct (Z.eqb_spec v 0) as [->|]; [|discriminate].
      injection L as <-. apply nb_scene.
  - intros H. destruct H as [|i n v En W].
    + rewrite (table_other objs ids) by assumption. reflexivity.
    + rewrite (table_at objs ids 1 _ v i F D' (P i n v En W)). reflexivity.
Qed.

(** ** Names *)
Lemma names_other l : forall ss i t v, Forall2 (fun n s => name_of n = s) l ss -> ~ In v ss -> blook v (names_from i l t) = blook v t.
Proof.
  induction l as [|n l IH]; intros ss i t v F H; inversion F as [|? w ? ss' W F']; subst; [reflexivity|].
  cbn [names_from]. rewrite (IH ss') by (trivial; intros I; apply H; now right). cbn [blook].
  destruct (beq v (name_of n)) eqn:B; [apply beq_eq in B; subst; exfalso; apply H; now left|reflexivity].
Qed.
Lemma names_at l : forall ss i t v j, Forall2 (fun n s => name_of n = s) l ss -> NoDup ss -> nth_error ss j = Some v ->
  blook v (names_from i l t) = Some (i + j)%nat.
Proof.
  induction l as [|n l IH]; intros ss i t v j F D E; inversion F as [|? w ? ss' W F']; subst; [destruct j; discriminate|].
  inversion D as [|? ? Nin D']; subst. cbn [names_from]. destruct j as [|j]; cbn [nth_error] in E.
  - injection E as <-. rewrite (names_other l ss') by assumption. cbn [blook]. rewrite beq_refl. f_equal. lia.
  - rewrite (IH ss' (S i) _ v j F' D' E). f_equal. lia.
Qed.
Lemma numbered_names l : forall ss i, Forall2 (fun n s => string_at n 0 s) l ss -> Forall2 (fun n s => name_of n = s) (numbered_from i l) ss.
Proof.
  induction l as [|n l IH]; intros ss i F; inversion F as [|? w ? ss' W F']; subst; cbn [numbered_from]; constructor; [|auto].
  exact (string_str n 0 w W).
Qed.
Lemma by_called objs names s i : Forall2 (fun n s => string_at n 0 s) objs names -> NoDup (scene_text :: scene_binary :: names) -> s <> scene_text ->
  forall o, blook s (names_from 1 (numbered_from i objs) [(scene_name, 0%nat)]) = Some o <-> called objs s o.
Proof.
  intros F D Ns o. pose proof (numbered_names objs names i F) as G. inversion D as [|? ? _ D1]; subst. inversion D1 as [|? ? N0 D']; subst.
  assert (P : forall i n w, nth_error objs i = Some n -> string_at n 0 w -> nth_error names i = Some w).
  { clear - F. intros i. revert objs names F. induction i as [|i IH]; intros objs ids F n w E W; inversion F as [|n' w' l l' W' F']; subst; try discriminate; cbn in *.
    - injection E as ->. f_equal. eapply string_fun; eassumption.
    - eapply IH; eassumption. }
  assert (Q : forall i w, nth_error names i = Some w -> exists n, nth_error objs i = Some n /\ string_at n 0 w).
  { clear - F. intros i. revert objs names F. induction i as [|i IH]; intros objs ids F w E; inversion F as [|n' w' l l' W' F']; subst; try discriminate; cbn in *.
    - injection E as ->. eauto.
    - eapply IH; eassumption. }
  split.
  - intros L. destruct (in_dec (list_eq_dec Z.eq_dec) s names) as [I|I].
    + destruct (In_nth_error _ _ I) as [j E]. rewrite (names_at _ names 1 _ s j G D' E) in L. injection L as <-.
      destruct (Q j s E) as (n & En & W). exact (cl_object objs j n s En W).
    + rewrite (names_other _ names 1 _ s G I) in L. cbn [blook] in L. destruct (beq s scene_name) eqn:B; [|discriminate].
      apply beq_eq in B. subst. injection L as <-. exact (cl_binary objs).
  - intros H. destruct H as [| |j n s En W].
    + rewrite (names_other _ names) by assumption. reflexivity.
    + contradiction.
    + rewrite (names_at _ names 1 _ s j G D' (P j n s En W)). reflexivity.
Qed.

(** ** Connections *)
Lemma kind_linking c : (beq (to_str (attr_at_ (node_attrs c) 0)) (byt "OO") || beq (to_str (attr_at_ (node_attrs c) 0)) (byt "OP")) = true <-> linking c.
Proof.
  unfold linking. rewrite orb_true_iff, !beq_iff. split.
  - intros [E|E]; [left|right]; apply str_string; exact E.
  - intros [H|H]; [left|right]; exact (string_str c 0 _ H).
Qed.
Section Links.
Variables (root : node) (objs conns : list node).
Hypothesis Eo : kids_at (top root "Objects") = objs.
Hypothesis Ec : kids_at (top root "Connections") = conns.

Lemma link_says_new c : old_version root = false -> numbers_ok objs conns -> In c conns ->
  (exists f t, link root c = [(f, t)] /\ says objs false c f t) \/ (link root c = [] /\ forall f t, ~ says objs false c f t).
Proof.
  intros V ((ids & F & D) & Fc) I. unfold link. destruct (beq _ _ || beq _ _) eqn:K.
  - apply (proj1 (kind_linking c)) in K. destruct (proj1 (Forall_forall _ _) Fc c I K) as (a & b & Wa & Wb).
    replace (Nat.leb 3 (length (node_attrs c))) with true by (symmetry; apply Nat.leb_le; apply (whole_long c 2 b Wb)).
    cbn [andb]. unfold found, by_id, object_nodes. rewrite V, Eo, (whole_int c 1 a 0 Wa), (whole_int c 2 b 0 Wb).
    pose proof (by_number objs ids a F D) as A. pose proof (by_number objs ids b F D) as B.
    destruct (lookup a _) as [f|].
    + destruct (lookup b _) as [t|].
      * left. exists f, t. split; [reflexivity|]. apply (sy_number objs c a b f t); trivial; [apply A|apply B]; reflexivity.
      * right. split; [reflexivity|]. intros f' t' S. inversion S as [? a' b' ? ? _ Wa' Wb' Na Nb|]; subst.
        rewrite (whole_fun c 2 b' b Wb' Wb) in Nb. apply B in Nb. discriminate.
    + right. split; [reflexivity|]. intros f' t' S. inversion S as [? a' b' ? ? _ Wa' Wb' Na Nb|]; subst.
      rewrite (whole_fun c 1 a' a Wa' Wa) in Na. apply A in Na. discriminate.
  - right. split; [reflexivity|]. intros f t S. inversion S as [? ? ? ? ? L|]; subst. apply (proj2 (kind_linking c)) in L. congruence.
Qed.
Lemma link_says_old c : old_version root = true -> names_ok objs conns -> In c conns ->
  (exists f t, link root c = [(f, t)] /\ says objs true c f t) \/ (link root c = [] /\ forall f t, ~ says objs true c f t).
Proof.
  intros V ((names & F & D) & Fc) I. unfold link. destruct (beq _ _ || beq _ _) eqn:K.
  - apply (proj1 (kind_linking c)) in K. destruct (proj1 (Forall_forall _ _) Fc c I K) as (a & b & Wa & Wb & Na0 & Nb0).
    replace (Nat.leb 3 (length (node_attrs c))) with true by (symmetry; apply Nat.leb_le; apply (string_long c 2 b Wb)).
    cbn [andb]. unfold found, by_name, object_nodes. rewrite V, Eo, (string_str c 1 a Wa), (string_str c 2 b Wb).
    pose proof (by_called objs names a 1 F D Na0) as A. pose proof (by_called objs names b 1 F D Nb0) as B.
    destruct (blook a _) as [f|].
    + destruct (blook b _) as [t|].
      * left. exists f, t. split; [reflexivity|]. apply (sy_name objs c a b f t); trivial; [apply A|apply B]; reflexivity.
      * right. split; [reflexivity|]. intros f' t' S. inversion S as [|? a' b' ? ? _ Wa' Wb' Na Nb]; subst.
        rewrite (string_fun c 2 b' b Wb' Wb) in Nb. apply B in Nb. discriminate.
    + right. split; [reflexivity|]. intros f' t' S. inversion S as [|? a' b' ? ? _ Wa' Wb' Na Nb]; subst.
      rewrite (string_fun c 1 a' a Wa' Wa) in Na. apply A in Na. discriminate.
  - right. split; [reflexivity|]. intros f t S. inversion S as [|? ? ? ? ? L]; subst. apply (proj2 (kind_linking c)) in L. congruence.
Qed.
Lemma flat_links old : (forall c, In c conns -> (exists f t, link root c = [(f, t)] /\ says objs old c f t) \/ (link root c = [] /\ forall f t, ~ says objs old c f t)) ->
  links objs old conns (flat_map (link root) conns).
Proof.
  clear Ec. induction conns as [|c r IH]; intros H; cbn [flat_map]; [constructor|].
  destruct (H c (or_introl eq_refl)) as [(f & t & -> & S)|[-> S]]; cbn [app]; constructor; trivial; apply IH; intros; apply H; now right.
Qed.
End Links.

Lemma read_links (T : Type) (N : Num T) f32 f64 of_int local_of root objs conns :
  kids_at (top root "Objects") = objs -> kids_at (top root "Connections") = conns ->
  (version root <> 6100 /\ numbers_ok objs conns -> links objs false conns (fdConns (read_doc f32 f64 of_int local_of root))) /\
  (version root = 6100 /\ names_ok objs conns -> links objs true conns (fdConns (read_doc f32 f64 of_int local_of root))).
Proof.
  intros Eo Ec. cbn [read_doc fdConns]. rewrite Ec. split; intros [V H].
  - apply flat_links. intros c I. eapply link_says_new; try eassumption. unfold old_version. apply Z.eqb_neq. exact V.
  - apply flat_links. intros c I. eapply link_says_old; try eassumption. unfold old_version. apply Z.eqb_eq. exact V.
Qed.

(** ** Types *)
Section Types.
Context {T : Type} {N : Num T}.
Variables (f32 f64 of_int : Z -> T) (local_of : (string -> list (option T)) -> mat4 T).
Lemma numbered_name l : forall i k n, nth_error (numbered_from i l) k = Some n -> exists m, nth_error l k = Some m /\ node_name m = node_name n /\ node_kids m = node_kids n.
Proof.
  induction l as [|x l IH]; intros i k n E; [destruct k; discriminate|]. destruct k as [|k]; cbn in E; [|eauto].
  injection E as <-. exists x. auto.
Qed.
Lemma numbered_nth l : forall i k m, nth_error l k = Some m -> nth_error (numbered_from i l) k = Some (Node (node_name m) (AI64 (i + Z.of_nat k) :: node_attrs m) (node_kids m)).
Proof.
  induction l as [|x l IH]; intros i k m E; [destruct k; discriminate|]. destruct k as [|k]; cbn in E |- *.
  - injection E as ->. rewrite Z.add_0_r. reflexivity.
  - rewrite (IH (i + 1) k m E). do 4 f_equal. lia.
Qed.
(** The node of an object. *)
Lemma object_node root k m : nth_error (kids_at (top root "Objects")) k = Some m ->
  exists n, nth_error (object_nodes root) k = Some n /\ node_name n = node_name m /\ node_kids n = node_kids m.
Proof.
  intros E. unfold object_nodes. destruct (old_version root); [|eauto]. rewrite (numbered_nth _ 1 k m E). eexists. split; [reflexivity|]. auto.
Qed.
Lemma named_iff s n : is_named s n = true <-> node_name n = byt s.
Proof. apply beq_iff. Qed.
Lemma read_types root i m : nth_error (kids_at (top root "Objects")) i = Some m ->
  let d := read_doc f32 f64 of_int local_of root in
  (is_model d (S i) = true <-> node_name m = byt "Model") /\ (is_geom d (S i) = true <-> node_name m = byt "Geometry") /\
  (is_mat d (S i) = true <-> node_name m = byt "Material") /\ (is_def d (S i) = true <-> node_name m = byt "Deformer") /\
  (node_name m = byt "Texture" -> is_texture d (S i) = true).
Proof.
  intros E d. destruct (object_node root i m E) as (n & En & Nn & _). rewrite <- Nn.
  unfold is_model, is_geom, is_mat, is_def, is_texture. change (fdObjs d (S i)) with (objects f32 f64 of_int local_of root (S i)). cbn [objects]. rewrite En.
  unfold read_obj.
  destruct (is_named "Deformer" n) eqn:B1.
  { apply named_iff in B1. rewrite B1. repeat split; intros H; try discriminate; try reflexivity. }
  destruct (is_named "Geometry" n) eqn:B2.
  { apply named_iff in B2. rewrite B2. repeat split; intros H; try discriminate; try reflexivity. }
  destruct (is_named "Material" n) eqn:B3.
  { apply named_iff in B3. rewrite B3. repeat split; intros H; try discriminate; try reflexivity. }
  destruct (is_named "Model" n) eqn:B4.
  { apply named_iff in B4. rewrite B4. repeat split; intros H; try discriminate; try reflexivity. }
  repeat split; intros H; try discriminate.
  - apply named_iff in H. congruence.
  - apply named_iff in H. congruence.
  - apply named_iff in H. congruence.
  - apply named_iff in H. congruence.
  - cbn. rewrite H. reflexivity.
Qed.
Lemma places_spec (f : node -> bool) l : forall i, StronglySorted lt (places f i l) /\ (forall o, In o (places f i l) <-> exists k n, o = (i + k)%nat /\ nth_error l k = Some n /\ f n = true).
Proof.
  induction l as [|x l IH]; intros i; cbn [places].
  - split; [constructor|]. intros o. split; [intros []|]. intros (k & n & _ & E & _). destruct k; discriminate.
  - destruct (IH (S i)) as [O M]. split.
    + destruct (f x); [|exact O]. cbn [app]. constructor; [exact O|]. apply Forall_forall. intros o I. apply M in I. destruct I as (k & n & -> & _). lia.
    + intros o. rewrite in_app_iff. split.
      * intros [I|I].
        { destruct (f x) eqn:E; [|destruct I]. destruct I as [<-|[]]. exists 0%nat, x. rewrite Nat.add_0_r. auto. }
        { apply M in I. destruct I as (k & n & -> & E & Hf). exists (S k), n. split; [lia|]. auto. }
      * intros (k & n & -> & E & Hf). destruct k as [|k].
        { left. cbn in E. injection E as ->. rewrite Hf. left. lia. }
        { right. apply M. exists k, n. split; [lia|]. auto. }
Qed.
Lemma read_materials root : let d := read_doc f32 f64 of_int local_of root in
  StronglySorted lt (fdMats d) /\ (forall o, In o (fdMats d) <-> exists i n, o = S i /\ nth_error (kids_at (top root "Objects")) i = Some n /\ node_name n = byt "Material").
Proof.
  intros d. destruct (places_spec (is_named "Material") (object_nodes root) 1) as [O M]. split; [exact O|]. intros o. etransitivity; [apply M|]. split.
  - intros (k & n & -> & E & H). exists k. unfold object_nodes in E. apply named_iff in H. destruct (old_version root); [|eauto].
    destruct (numbered_name _ _ _ _ E) as (m & Em & Nm & _). exists m. rewrite Nm. auto.
  - intros (i & n & -> & E & H). destruct (object_node root i n E) as (m & Em & Nm & _). exists i, m. split; [reflexivity|]. split; [exact Em|]. apply named_iff. congruence.
Qed.
End Types.
