(** Meshes that are imported from FBX files into scenes. *)
From Coq Require Import String Ascii List ZArith Bool Lia Reals DecimalString DecimalZ.
From Verif.Model Require Import Num NumR Vec Matrix Mqo MqoDoc Mmd2Mqo FbxDoc UnityProject Fbx2Mqo UnityImport.
From Verif.Spec Require Import GeomSpec FbxDocSpec FbxSceneSpec FbxMeshSpec UnityImportSpec.
From Verif.Proofs Require Mmd2MqoFaces FbxSceneTotal.
From Verif.Proofs Require Import MatrixLemmas FbxDocProofs ProjectProofs FbxWalk FbxTree FbxObjects FbxFaces.
Import ListNotations.
Local Open Scope string_scope.
Local Open Scope list_scope.
Local Open Scope Z_scope.

(** *** Keys *)
Lemma sprint_inj a b : sprint a = sprint b -> a = b.
Proof. unfold sprint. intros H. apply (f_equal NilEmpty.int_of_string) in H. rewrite !NilEmpty.isi in H. injection H as H. apply (f_equal Z.of_int) in H. now rewrite !DecimalZ.of_to in H. Qed.
Lemma append_cut (a b c d : string) : String.length a = String.length b -> (a ++ c = b ++ d)%string -> a = b /\ c = d.
Proof.
  revert b. induction a as [|x a IH]; intros [|y b] L H; cbn in L; try discriminate; [now split|]. cbn in H. injection H as -> H. destruct (IH b) as [-> ->]; [now injection L|exact H|now split].
Qed.

(** *** Names *)
Lemma append_len a b : String.length (a ++ b)%string = (String.length a + String.length b)%nat.
Proof. induction a as [|x a IH]; cbn; [reflexivity|now rewrite IH]. Qed.
Lemma append_cancel_r (a b c : string) : (a ++ c = b ++ c)%string -> a = b.
Proof.
  intros H. assert (L : String.length a = String.length b) by (apply (f_equal String.length) in H; rewrite !append_len in H; lia). now destruct (append_cut a b c c L H).
Qed.
Lemma shown_binary n : plain n -> shown_name (binary_name n) = (n ++ "::Model")%string.
Proof. intros P. unfold binary_name. rewrite shown_plain by exact P. reflexivity. Qed.
Lemma binary_inj a b : binary_name a = binary_name b -> a = b.
Proof. unfold binary_name. apply append_cancel_r. Qed.

Section O.
Context {T : Type} {N : Num T}.
Variable d : fdoc T.
Lemma find_named n : named_models d -> match find_child_model d n with Some o => first_named d n o | None => not_named d n end.
Proof.
  unfold named_models, find_child_model, first_named, not_named. induction (children d (fdScene d)) as [|c l IH]; intros H; [constructor|]. inversion H as [|? ? (m & P & E) H']; subst. cbn [find]. rewrite E, shown_binary by exact P.
  destruct (String.eqb (m ++ "::Model") (n ++ "::Model")) eqn:Q.
  - apply String.eqb_eq, append_cancel_r in Q. subst m. exists [], l. split; [reflexivity|]. split; [exact E|constructor].
  - assert (NE : name d c <> binary_name n). { rewrite E. intros X. apply binary_inj in X. subst. now rewrite String.eqb_refl in Q. }
    specialize (IH H'). destruct (find _ l) as [o|]; [|now constructor]. destruct IH as (l1 & r & -> & A & B). exists (c :: l1), r. split; [reflexivity|]. split; [exact A|now constructor].
Qed.

(** *** The materials of an object *)
Lemma firsts_filter K s1 s2 l : (forall j, j < K -> existsb (Z.eqb j) s1 = existsb (Z.eqb j) s2) -> filter (fun j => j <? K) (firsts s1 l) = filter (fun j => j <? K) (firsts s2 l).
Proof.
  revert s1 s2. induction l as [|x l IH]; intros s1 s2 H; [reflexivity|]. cbn [firsts]. destruct (x <? K) eqn:L.
  - rewrite (H x) by (now apply Z.ltb_lt). destruct (existsb (Z.eqb x) s2); [now apply IH|]. cbn [filter]. rewrite L. f_equal. apply IH. intros j J. cbn [existsb]. now rewrite H.
  - apply Z.ltb_ge in L. assert (X : forall s, (filter (fun j => j <? K) (if existsb (Z.eqb x) s then firsts s l else x :: firsts (x :: s) l) = filter (fun j => j <? K) (firsts s l))%Z).
    { intros s. destruct (existsb (Z.eqb x) s); [reflexivity|]. cbn [filter]. replace (x <? K) with false by (symmetry; now apply Z.ltb_ge). apply IH. intros j J. cbn [existsb]. replace (j =? x) with false by (symmetry; apply Z.eqb_neq; lia). reflexivity. }
    rewrite !X. now apply IH.
Qed.
Lemma zidx_list_set {A} (l : list A) j k x : 0 <= k < Z.of_nat (length l) -> zidx (list_set l (Z.to_nat k) x) j = if j =? k then Some x else zidx l j.
Proof. intros K. now rewrite Mmd2MqoFaces.list_set_zidx by exact K. Qed.
Lemma list_set_len {A} (l : list A) k x : length (list_set l k x) = length l.
Proof. apply Mmd2MqoFaces.list_set_length. Qed.
Lemma override_loop_ok over arr : forall seen n ids out, override_loop over arr seen n ids = FOk out -> length ids = length over ->
  length out = length ids /\ (forall j, existsb (Z.eqb j) seen = true -> zidx out j = zidx ids j) /\
  forall p j x, nth_error (filter (fun j => j <? Z.of_nat (length ids)) (firsts seen arr)) p = Some j -> nth_error over (n + p) = Some x -> zidx out j = Some x.
Proof.
  induction arr as [|m arr IH]; intros seen n ids out H L; cbn [override_loop] in H; [injection H as <-; split; [reflexivity|]; split; [reflexivity|]; intros [|p]; discriminate|].
  cbn [firsts]. destruct (existsb (Z.eqb m) seen) eqn:S; cbn [orb] in H.
  - exact (IH _ _ _ _ H L).
  - destruct (Z.of_nat (length ids) <=? m) eqn:K.
    + apply Z.leb_le in K. destruct (IH _ _ _ _ H L) as (A & B & C). split; [exact A|]. split; [exact B|]. cbn [filter]. replace (m <? Z.of_nat (length ids)) with false by (symmetry; apply Z.ltb_ge; lia).
      intros p j x P X. apply (C p j x); [|exact X]. rewrite <- P. f_equal. apply firsts_filter. intros i I. cbn [existsb]. now replace (i =? m) with false by (symmetry; apply Z.eqb_neq; lia).
    + apply Z.leb_gt in K. destruct (m <? 0) eqn:M; [discriminate|]. apply Z.ltb_ge in M. unbind H. apply fopt_ok in E. cbn [filter]. replace (m <? Z.of_nat (length ids)) with true by (symmetry; apply Z.ltb_lt; lia).
      destruct (Nat.leb (length over) (Datatypes.S n)) eqn:Q.
      * injection H as <-. apply Nat.leb_le in Q. split; [apply list_set_len|]. split.
        -- intros j J. rewrite zidx_list_set by lia. destruct (j =? m) eqn:JM; [|reflexivity]. apply Z.eqb_eq in JM. subst j. congruence.
        -- intros [|p] j x P X; cbn [nth_error] in P.
           ++ injection P as <-. rewrite Nat.add_0_r, E in X. rewrite zidx_list_set by lia. now rewrite Z.eqb_refl.
           ++ assert (n + Datatypes.S p < length over)%nat by (apply nth_error_Some; congruence). lia.
      * destruct (IH _ _ _ _ H) as (A & B & C); [now rewrite list_set_len|]. rewrite list_set_len in A, C. split; [exact A|]. split.
        -- intros j J. rewrite B by (cbn [existsb]; now rewrite J, orb_true_r). rewrite zidx_list_set by lia. destruct (j =? m) eqn:JM; [|reflexivity]. apply Z.eqb_eq in JM. subst j. congruence.
        -- intros [|p] j x P X; cbn [nth_error] in P.
           ++ injection P as <-. rewrite Nat.add_0_r, E in X. rewrite B by (cbn [existsb]; now rewrite Z.eqb_refl). rewrite zidx_list_set by lia. now rewrite Z.eqb_refl.
           ++ apply (C p j x P). now replace (Datatypes.S n + p)%nat with (n + Datatypes.S p)%nat by lia.
Qed.
Lemma override_ok mats k (g : fgeom T) used : override mats (Some (k, g)) = FOk used -> dressed mats g used.
Proof.
  unfold override, dressed. destruct mats as [|m [|m' mats]]; [trivial|intros H; now injection H as <-|]. cbn [length Nat.ltb Nat.leb andb]. destruct (Nat.ltb 1 (length (lIndexes (gMats g)))) eqn:L; intros H.
  - unfold Nat.ltb in L. cbn [Nat.leb] in L. rewrite L in H |- *. destruct (override_loop_ok _ _ _ _ _ _ H) as (A & _ & C); [cbn; now rewrite map_length|]. cbn [length map] in A, C. rewrite map_length in A, C. split; [exact A|]. intros n j x. exact (C n j x).
  - unfold Nat.ltb in L. cbn [Nat.leb] in L. rewrite L in H |- *. now injection H as <-.
Qed.

(** *** The named model *)
Variables tenth facet : T.
Variable op : foption T.
Variable base : nat.
Lemma target_ok fuel objs st mats : opTarget op <> "" -> convert_fbx tenth facet d fuel op objs base = FOk (st, mats) ->
  exists coord, fdCoord d = Some coord /\
    match find_child_model d (opTarget op) with
    | None => fsObjs st = objs
    | Some o => exists vs oss ms js, walk d (opWhole op) [] o vs /\ blocks facet d op base (top_place d op coord) (length objs) vs oss ms js /\ fsObjs st = objs ++ concat oss
    end.
Proof.
  unfold convert_fbx. intros OT H. unbind H. apply fopt_ok in E. exists a. split; [exact E|]. apply String.eqb_neq in OT. rewrite OT in H. cbn [negb] in H. destruct (find_child_model d (opTarget op)) as [o|]; [|now injection H as <- <-].
  unbind H. injection H as <- <-. assert (OK := model_ok facet d fuel a op base (top_place d op a) fuel (mkFS objs [] [] []) o []). cbn [length Z.of_nat app] in OK. rewrite Z.add_0_r in OK.
  destruct (OK _ _ E0 eq_refl) as (vs & oss & ms & js & s & A & B & C & ->). exists vs, oss, ms, js. split; [exact A|]. split; [exact B|reflexivity].
Qed.
Lemma walk_nonempty path o vs : walk d (opWhole op) path o vs -> Forall (fun p => p <> []) vs.
Proof. intros W. assert (X := walks_nonempty d op path [o] (vs ++ []) (walks_cons _ _ _ _ _ _ _ W (walks_nil _ _ _))). now rewrite app_nil_r in X. Qed.
End O.

Section I.
Context {T : Type} {N : Num T}.
Variables tenth facet hundredth : T.
Notation import_options := (import_options hundredth).

Lemma labels_op (d : fdoc T) name s mats depth tr path : labels d (import_options name s mats depth tr) path = labels d plain_op path.
Proof. reflexivity. Qed.
Lemma import_top (d : fdoc T) name s mats depth tr coord o : 0 <= depth -> top_place d (import_options name s mats depth tr) coord o = import_place d coord tr (nmul s hundredth) o.
Proof.
  intros D. unfold top_place, model_transform, import_options, import_place. cbn [opDepth opRoot]. replace (0 <? depth + 1) with true by (symmetry; apply Z.ltb_lt; lia). now rewrite Z.eqb_refl.
Qed.
Lemma placed_place (d : fdoc T) top top' path : (forall o, top o = top' o) -> placed d top path = place_below d top' path.
Proof. intros H. destruct path as [|o r]; [reflexivity|]. cbn. now rewrite H. Qed.
Lemma describes_stands (d : fdoc T) name s mats depth tr base coord l x : 0 <= depth -> fst l <> [] ->
  describes d (import_options name s mats depth tr) base (top_place d (import_options name s mats depth tr) coord) l x ->
  stands d depth (place_below d (import_place d coord tr (nmul s hundredth)) (fst l)) mats l x.
Proof.
  intros D NE ((A & B & C) & _ & _ & _ & M). split; [exact A|]. split; [exact B|]. split; [exact C|]. intros SN. rewrite SN in M. unfold base_object in M. unfold mesh_in.
  rewrite (placed_place d _ (import_place d coord tr (nmul s hundredth)) (fst l)) in M by (intros o; now apply import_top).
  destruct (geometry d (last (fst l) 0%nat)) as [[k g]|] eqn:G; [|exact M]. destruct M as (V & used & MM & F). split; [exact V|]. exists used. split; [now apply faces_drawn|]. intros L. rewrite L in MM. unfold model_materials in MM.
  cbn [opDepth opOverride import_options] in MM. replace (depth + 1 + Z.of_nat 1 - 1) with (depth + 1) in MM by lia. rewrite Z.eqb_refl in MM. replace (0 <? depth + 1) with true in MM by (symmetry; apply Z.ltb_lt; lia). cbn [andb] in MM.
  destruct mats as [|m ms]; [exact I|]. rewrite G in MM. exact (override_ok _ k g used MM).
Qed.
Lemma stands_all (d : fdoc T) name s mats depth tr base coord n vs oss ms js : 0 <= depth -> Forall (fun p => p <> []) vs ->
  blocks facet d (import_options name s mats depth tr) base (top_place d (import_options name s mats depth tr) coord) n vs oss ms js ->
  Forall2 (fun l x => stands d depth (place_below d (import_place d coord tr (nmul s hundredth)) (fst l)) mats l x) (flat_map (labels d plain_op) vs) (concat oss).
Proof.
  intros D NE B. destruct (blocks_ok _ _ _ _ _ _ _ _ _ _ NE B) as [_ F].
  assert (LP : Forall (fun l => fst l <> []) (flat_map (labels d plain_op) vs)).
  { apply Forall_forall. intros l I. apply in_flat_map in I. destruct I as (p & P & I). rewrite Forall_forall in NE. specialize (NE _ P). destruct I as [<-|I]; [exact NE|]. apply in_map_iff in I. now destruct I as (sh & <- & _). }
  change (flat_map (labels d (import_options name s mats depth tr)) vs) with (flat_map (labels d plain_op) vs) in F. clear - F LP D. induction F as [|l x L os H F IH]; [constructor|]. inversion LP; subst. constructor; [|now apply IH]. eapply describes_stands; eassumption.
Qed.

(** Marking the only object does not change what it stands for. *)
Lemma stands_internal (d : fdoc T) depth m mats l x i : stands d depth m mats l x -> stands d depth m mats l (set_internal x i).
Proof. intros H. exact H. Qed.

Variable as_ : assets T.
Notation import_mesh := (import_mesh tenth facet hundredth as_).
Notation import_doc := (import_doc tenth facet hundredth).
Notation import_all := (import_all tenth facet hundredth as_).

Lemma import_doc_objs fuel d r name mats depth tr objs base a : import_doc fuel d r name mats depth tr objs base = FOk a ->
  exists st ms, convert_fbx tenth facet (fst d) fuel (import_options name (snd d) mats depth tr) objs base = FOk (st, ms) /\ adMats a = ms /\
    (adObjs a = skipn (length objs) (fsObjs st) /\ length (adObjs a) <> 1%nat /\ adKey a = None \/ exists x, skipn (length objs) (fsObjs st) = [x] /\ adObjs a = [set_internal x (Some tr)] /\ adKey a = Some (mrGUID r ++ sprint (mrFile r))%string).
Proof.
  unfold import_doc. intros H. unbind H. destruct a0 as [st ms]. exists st, ms. split; [exact E|]. destruct (skipn (length objs) (fsObjs st)) as [|x [|y l]]; injection H as <-; cbn [adMats adObjs adKey length]; (split; [reflexivity|]); [left|right; now exists x|left]; repeat split; discriminate.
Qed.
Lemma skip_new {A} (l r : list A) : skipn (length l) (l ++ r) = r.
Proof. rewrite skipn_app, skipn_all, Nat.sub_diag. reflexivity. Qed.
Lemma import_doc_named fuel d r name mats depth tr objs base a : 0 <= depth -> name <> "" -> named_models (fst d) -> import_doc fuel d r name mats depth tr objs base = FOk a ->
  exists coord, fdCoord (fst d) = Some coord /\
   ((not_named (fst d) name /\ adObjs a = []) \/
    exists o vs, first_named (fst d) name o /\ walk (fst d) false [] o vs /\
      Forall2 (fun l x => stands (fst d) depth (place_below (fst d) (import_place (fst d) coord tr (nmul (snd d) hundredth)) (fst l)) mats l x) (flat_map (labels (fst d) plain_op) vs) (adObjs a)).
Proof.
  intros D NN NM H. apply import_doc_objs in H. destruct H as (st & ms & C & _ & O). assert (TN : opTarget (import_options name (snd d) mats depth tr) <> "") by exact NN. destruct (target_ok _ _ _ _ _ _ _ _ _ TN C) as (coord & CO & W). exists coord. split; [exact CO|].
  cbn [opTarget import_options] in W. assert (F := find_named (fst d) name NM). destruct (find_child_model (fst d) name) as [o|].
  - right. destruct W as (vs & oss & ms' & js & W & B & E). exists o, vs. split; [exact F|]. split; [exact W|]. rewrite E, skip_new in O. assert (S := stands_all _ _ _ _ _ _ _ _ _ _ _ _ _ D (walk_nonempty _ _ _ _ _ W) B).
    destruct O as [(-> & _)|(x & X & -> & _)]; [exact S|]. rewrite X in S. inversion S as [|l ? ls ? H1 H2]; subst. inversion H2; subst. constructor; [now apply stands_internal|constructor].
  - left. split; [exact F|]. rewrite W in O. rewrite skipn_all in O. destruct O as [(-> & _)|(x & X & _)]; [reflexivity|discriminate].
Qed.

(** *** Memory *)
Definition remembers (mem : memory T) : Prop := lastID mem = "" \/ exists path d, asPath as_ (lastID mem) = Some path /\ trim_suffix ".fbx" path <> None /\ asRead as_ path = Some d /\ lastDoc mem = Some d.
Lemma import_step fuel mem q : remembers mem -> mrGUID (rqRef q) <> "" ->
  snd (import_mesh fuel mem (rqRef q) (rqMats q) (rqDepth q) (rqTr q) (rqObjs q) (rqBase q)) = snd (import_mesh fuel no_memory (rqRef q) (rqMats q) (rqDepth q) (rqTr q) (rqObjs q) (rqBase q)) /\
  remembers (fst (import_mesh fuel mem (rqRef q) (rqMats q) (rqDepth q) (rqTr q) (rqObjs q) (rqBase q))).
Proof.
  intros R G. unfold import_mesh. destruct (asPath as_ (mrGUID (rqRef q))) as [path|] eqn:P; [|now split]. destruct (asMeta as_ (mrGUID (rqRef q))) as [table|]; [|now split].
  unfold load_fbx. cbn [lastID lastDoc no_memory]. replace (String.eqb "" (mrGUID (rqRef q))) with false by (symmetry; apply String.eqb_neq; congruence).
  destruct (String.eqb (lastID mem) (mrGUID (rqRef q))) eqn:E.
  - apply String.eqb_eq in E. destruct R as [R|(path' & d & A & B & C & D)]; [congruence|]. rewrite E, P in A. injection A as <-. destruct (trim_suffix ".fbx" path) eqn:S; [|congruence]. rewrite C, D. cbn [fst snd]. split; [reflexivity|]. right. exists path, d. rewrite E, S. repeat split; try assumption; try discriminate.
  - destruct (trim_suffix ".fbx" path) eqn:S; [|now split]. destruct (asRead as_ path) as [d|] eqn:RD; [|now split]. cbn [fst snd]. split; [reflexivity|]. right. exists path, d. cbn [lastID lastDoc]. rewrite S. repeat split; try assumption; try discriminate.
Qed.
Definition alone (fuel : nat) (q : request T) : fres (option (added T)) := snd (import_mesh fuel no_memory (rqRef q) (rqMats q) (rqDepth q) (rqTr q) (rqObjs q) (rqBase q)).
Lemma import_all_ok fuel : forall l mem, remembers mem -> Forall (fun q => mrGUID (rqRef q) <> "") l ->
  exists n, import_all fuel mem l = map (alone fuel) (firstn n l) /\ ((length l <= n)%nat \/ exists q, nth_error l (pred n) = Some q /\ forall a, alone fuel q <> FOk a).
Proof.
  induction l as [|q l IH]; intros mem R G; [exists 0%nat; split; [reflexivity|now left]|]. inversion G as [|? ? G1 G2]; subst. destruct (import_step fuel mem q R G1) as [E R']. cbn [UnityImport.import_all].
  destruct (import_mesh fuel mem (rqRef q) (rqMats q) (rqDepth q) (rqTr q) (rqObjs q) (rqBase q)) as [mem' a]. cbn [fst snd] in *. fold (alone fuel q) in E. subst a. destruct (IH mem' R' G2) as (n & EQ & LE).
  destruct (alone fuel q) eqn:A.
  - exists (Datatypes.S n). cbn [firstn map]. rewrite A, EQ. split; [reflexivity|]. destruct LE as [LE|(q' & Q & X)]; [left; cbn; lia|]. right. exists q'. split; [|exact X]. destruct n; [|exact Q]. cbn [pred] in *. destruct l as [|q0 l]; [discriminate|]. injection Q as ->.
    cbn [firstn map] in EQ. cbn [UnityImport.import_all] in EQ. destruct (import_mesh fuel mem' _ _ _ _ _ _) in EQ. discriminate.
  - exists 1%nat. cbn [firstn map]. rewrite A. split; [reflexivity|]. right. exists q. split; [reflexivity|]. rewrite A. discriminate.
  - exists 1%nat. cbn [firstn map]. rewrite A. split; [reflexivity|]. right. exists q. split; [reflexivity|]. rewrite A. discriminate.
Qed.
Lemma import_nth fuel l i a : Forall (fun q => mrGUID (rqRef q) <> "") l -> nth_error (import_all fuel no_memory l) i = Some a -> exists q, nth_error l i = Some q /\ a = alone fuel q.
Proof.
  intros G H. destruct (import_all_ok fuel l no_memory (or_introl eq_refl) G) as (n & E & _). rewrite E, nth_error_map in H. destruct (nth_error (firstn n l) i) as [q|] eqn:Q; [|discriminate]. injection H as <-. exists q. split; [|reflexivity].
  rewrite <- (firstn_skipn n l). rewrite nth_error_app1; [exact Q|]. apply nth_error_Some. congruence.
Qed.
Lemma alone_ok fuel q a : alone fuel q = FOk (Some a) -> mrGUID (rqRef q) <> "" ->
  exists path table d, asPath as_ (mrGUID (rqRef q)) = Some path /\ asMeta as_ (mrGUID (rqRef q)) = Some table /\ trim_suffix ".fbx" path <> None /\ asRead as_ path = Some d /\
    import_doc fuel d (rqRef q) (recycle_name table (mrFile (rqRef q))) (rqMats q) (rqDepth q) (rqTr q) (rqObjs q) (rqBase q) = FOk a.
Proof.
  unfold alone, import_mesh. intros H G. destruct (asPath as_ (mrGUID (rqRef q))) as [path|]; [|discriminate]. destruct (asMeta as_ (mrGUID (rqRef q))) as [table|]; [|discriminate]. unfold load_fbx in H. cbn [lastID no_memory] in H.
  replace (String.eqb "" (mrGUID (rqRef q))) with false in H by (symmetry; apply String.eqb_neq; congruence). destruct (trim_suffix ".fbx" path) eqn:S; [|discriminate]. destruct (asRead as_ path) as [d|] eqn:R; [|discriminate].
  cbn [snd fbind] in H. unbind H. injection H as <-. exists path, table, d. rewrite S. repeat split; try assumption; try discriminate.
Qed.
End I.

(** *** Copies *)
Section C.
Context {T : Type} {N : Num T}.
Variables tenth facet hundredth : T.
Lemma block_some (d : fdoc T) op base n o depth tr os ms js : block facet d op base n o depth tr os ms js -> os <> [].
Proof. intros (mats & _ & B). destruct (geometry d o) as [[k g]|]; [destruct B as (fs & ts & _ & _ & -> & _)|destruct B as (-> & _)]; discriminate. Qed.
Lemma blocks_single (d : fdoc T) op base top n vs oss ms js x : blocks facet d op base top n vs oss ms js -> concat oss = [x] -> exists p, vs = [p].
Proof.
  intros B E. destruct B as [n|n p vs os oss ms mss js jss H B]; [discriminate|]. exists p. apply block_some in H. destruct os as [|y os]; [congruence|]. cbn [concat app] in E. injection E as -> E. apply app_eq_nil in E. destruct E as [-> E].
  destruct B as [|n' p' vs' os' oss' ms' mss' js' jss' H' B']; [reflexivity|]. apply block_some in H'. destruct os'; [congruence|discriminate].
Qed.
(** The only model that is taken. *)
Definition only (d : fdoc T) (name : string) (o : nat) : Prop :=
  if String.eqb name "" then exists sel, tops d plain_op sel /\ filter sel (children d (fdScene d)) = [o] else find_child_model d name = Some o.
Lemma only_one d name o o' : only d name o -> only d name o' -> o = o'.
Proof.
  unfold only. destruct (String.eqb name ""); [|congruence]. intros (s & S & F) (s' & S' & F'). assert (E : filter s (children d (fdScene d)) = filter s' (children d (fdScene d))).
  { apply filter_ext_in. intros c I. specialize (S c I). specialize (S' c I). destruct (s c), (s' c); try reflexivity; exfalso; [assert (false = true) by tauto|assert (false = true) by tauto]; discriminate. }
  congruence.
Qed.
Lemma single_ok fuel d r name mats depth tr objs base a k : 0 <= depth -> import_doc tenth facet hundredth fuel d r name mats depth tr objs base = FOk a -> adKey a = Some k ->
  k = (mrGUID r ++ sprint (mrFile r))%string /\ exists coord o x, fdCoord (fst d) = Some coord /\ only (fst d) name o /\ adObjs a = [x] /\ oInternal x = Some tr /\
    base_object (fst d) (import_options hundredth name (snd d) mats depth tr) base [o] (import_place (fst d) coord tr (nmul (snd d) hundredth) o) x.
Proof.
  intros D H K. apply import_doc_objs in H. destruct H as (st & ms & C & _ & [(_ & _ & KN)|(x & X & O & KS)]); [congruence|]. split; [congruence|]. set (op := import_options hundredth name (snd d) mats depth tr) in *.
  assert (G : exists coord o oss ms js, fdCoord (fst d) = Some coord /\ only (fst d) name o /\ blocks facet (fst d) op base (top_place (fst d) op coord) (length objs) [[o]] oss ms js /\ fsObjs st = objs ++ concat oss).
  { destruct (string_dec name "") as [E|E].
    - assert (OT : opTarget op = "") by exact E. destruct (fbx_ok _ _ _ _ _ _ _ _ _ OT C) as (coord & sel & vs & oss & ms' & js & s & CO & TS & W & B & J & ES & EM). rewrite ES in X. cbn [fsObjs] in X. rewrite skip_new in X.
      destruct (blocks_single _ _ _ _ _ _ _ _ _ _ B X) as (p & ->). inversion W as [|pa o os vs ws W1 W2 P1 P2 P3]; subst. inversion W1; subst. cbn [app] in P3. injection P3 as <- P3. apply app_eq_nil in P3. destruct P3 as [-> ->].
      assert (os = []) by (inversion W2 as [|? ? ? ? ? V1 V2 Q1 Q2 Q3]; [reflexivity|]; subst; inversion V1; subst; discriminate). subst os.
      exists coord, o, oss, ms', js. split; [exact CO|]. split; [|split; [exact B|reflexivity]]. unfold only. cbn [String.eqb]. exists sel. split; [exact TS|congruence].
    - assert (OT : opTarget op <> "") by exact E. destruct (target_ok _ _ _ _ _ _ _ _ _ OT C) as (coord & CO & W). cbn [opTarget op import_options] in W. destruct (find_child_model (fst d) name) as [o|] eqn:F; [|rewrite W, skipn_all in X; discriminate].
      destruct W as (vs & oss & ms' & js & W & B & ES). rewrite ES, skip_new in X. destruct (blocks_single _ _ _ _ _ _ _ _ _ _ B X) as (p & ->). inversion W; subst. exists coord, o, oss, ms', js. split; [exact CO|]. split; [|split; [exact B|exact ES]]. unfold only. apply String.eqb_neq in E. now rewrite E. }
  destruct G as (coord & o & oss & ms' & js & CO & ON & B & ES). rewrite ES, skip_new in X. exists coord, o, (set_internal x (Some tr)). split; [exact CO|]. split; [exact ON|]. split; [exact O|]. split; [reflexivity|].
  assert (NE : Forall (fun p : list nat => p <> []) [[o]]) by (constructor; [discriminate|constructor]). destruct (blocks_ok _ _ _ _ _ _ _ _ _ _ NE B) as [_ F]. rewrite X in F. cbn [flat_map labels app] in F. inversion F as [|? ? ? ? F1 F2]; subst. destruct F1 as (_ & _ & _ & _ & M). cbn [snd fst placed map fold_left] in M.
  unfold op in M. rewrite import_top in M by exact D. exact M.
Qed.
Lemma faces_same (g : fgeom T) nt nt' m m' np : forall fs i k xs ys, convert_faces g nt m np i k fs = FOk xs -> convert_faces g nt' m' np i k fs = FOk ys ->
  Forall2 (fun x y => fVerts x = fVerts y /\ fUVs x = fUVs y /\ (m = m' -> fMaterial x = fMaterial y)) xs ys.
Proof.
  induction fs as [|f fs IH]; intros i k xs ys H H'; cbn [convert_faces] in *; [injection H as <-; injection H' as <-; constructor|]. unbind H. unbind H. unbind H'. unbind H'. injection H as <-. injection H' as <-. constructor; [|eapply IH; eassumption].
  unfold convert_face in E, E1. unbind E. unbind E. unbind E1. unbind E1. injection E as <-. injection E1 as <-. unfold flip. cbn [fVerts fUVs fMaterial]. rewrite E4 in E6. injection E6 as <-. split; [reflexivity|]. split; [reflexivity|]. intros <-. congruence.
Qed.
End C.

Section CR.
Local Open Scope R_scope.
Lemma import_place_apply (d : fdoc R) coord tr u o v : affine coord ->
  mat_apply (import_place d coord tr u o) v = mat_apply tr (mat_apply (mat_mul (mat_scale (- u) u (- u)) (mat_mul (mat_translate (- vx (pivot d o)) (- vy (pivot d o)) (- vz (pivot d o))) coord)) v).
Proof.
  intros A. unfold import_place. rewrite <- mat_mul_assoc. apply mat_apply_mul. apply affine_mul; [apply mat_scale_affine|]. apply affine_mul; [|exact A]. repeat split.
Qed.
Lemma copies_ok tenth facet hundredth (as_ : assets R) fuel (q1 q2 : request R) a1 a2 k : (0 <= rqDepth q1)%Z -> (0 <= rqDepth q2)%Z -> mrGUID (rqRef q1) <> ""%string ->
  String.length (mrGUID (rqRef q1)) = String.length (mrGUID (rqRef q2)) ->
  (forall path d coord, asRead as_ path = Some d -> fdCoord (fst d) = Some coord -> affine coord) ->
  alone tenth facet hundredth as_ fuel q1 = FOk (Some a1) -> alone tenth facet hundredth as_ fuel q2 = FOk (Some a2) -> adKey a1 = Some k -> adKey a2 = Some k ->
  rqRef q1 = rqRef q2 /\ exists x1 x2, adObjs a1 = [x1] /\ adObjs a2 = [x2] /\ oInternal x1 = Some (rqTr q1) /\ oInternal x2 = Some (rqTr q2) /\
    (exists pts, oVerts x1 = map (mat_apply (rqTr q1)) pts /\ oVerts x2 = map (mat_apply (rqTr q2)) pts) /\
    Forall2 (fun f1 f2 => fVerts f1 = fVerts f2 /\ fUVs f1 = fUVs f2 /\ (rqMats q1 = rqMats q2 -> rqMats q1 <> [] -> fMaterial f1 = fMaterial f2)) (oFaces x1) (oFaces x2).
Proof.
  intros D1 D2 G1 GL AF A1 A2 K1 K2.
  assert (G2 : mrGUID (rqRef q2) <> ""%string) by (intros E; rewrite E in GL; destruct (mrGUID (rqRef q1)); [congruence|discriminate]).
  destruct (alone_ok _ _ _ _ _ _ _ A1 G1) as (p1 & t1 & d1 & P1 & M1 & _ & R1 & I1). destruct (alone_ok _ _ _ _ _ _ _ A2 G2) as (p2 & t2 & d2 & P2 & M2 & _ & R2 & I2).
  destruct (single_ok _ _ _ _ _ _ _ _ _ _ _ _ _ _ D1 I1 K1) as (E1 & c1 & o1 & x1 & C1 & O1 & X1 & T1 & B1). destruct (single_ok _ _ _ _ _ _ _ _ _ _ _ _ _ _ D2 I2 K2) as (E2 & c2 & o2 & x2 & C2 & O2 & X2 & T2 & B2).
  rewrite E1 in E2. apply append_cut in E2; [|exact GL]. destruct E2 as [EG EF]. apply sprint_inj in EF. assert (ER : rqRef q1 = rqRef q2) by (destruct (rqRef q1), (rqRef q2); cbn in *; now subst).
  split; [exact ER|]. rewrite <- ER in *. assert (p1 = p2) by congruence. subst p2. assert (d1 = d2) by congruence. subst d2. assert (t1 = t2) by congruence. subst t2. assert (c1 = c2) by congruence. subst c2. assert (o1 = o2) by (eapply only_one; eassumption). subst o2.
  exists x1, x2. split; [exact X1|]. split; [exact X2|]. split; [exact T1|]. split; [exact T2|]. assert (AC := AF _ _ _ R1 C1). unfold base_object in B1, B2. cbn [last] in B1, B2. destruct (geometry (fst d1) o1) as [[kk g]|] eqn:GE.
  - destruct B1 as (V1 & m1 & MM1 & F1), B2 as (V2 & m2 & MM2 & F2). split.
    + eexists (map _ (gVerts g)). rewrite V1, V2, !map_map. split; apply map_ext; intros v; now apply import_place_apply.
    + assert (ME : rqMats q1 = rqMats q2 -> rqMats q1 <> [] -> m1 = m2).
      { intros E NE. unfold model_materials in MM1, MM2. cbn [opDepth opOverride import_options length] in MM1, MM2. replace (rqDepth q1 + 1 + Z.of_nat 1 - 1 =? rqDepth q1 + 1)%Z with true in MM1 by (symmetry; apply Z.eqb_eq; lia). replace (rqDepth q2 + 1 + Z.of_nat 1 - 1 =? rqDepth q2 + 1)%Z with true in MM2 by (symmetry; apply Z.eqb_eq; lia).
        replace (0 <? rqDepth q1 + 1)%Z with true in MM1 by (symmetry; apply Z.ltb_lt; lia). replace (0 <? rqDepth q2 + 1)%Z with true in MM2 by (symmetry; apply Z.ltb_lt; lia). cbn [andb] in MM1, MM2. rewrite <- E in MM2. destruct (rqMats q1); [congruence|]. congruence. }
      assert (F := faces_same _ _ _ _ _ _ _ _ _ _ _ F1 F2). revert F. generalize (oFaces x1) (oFaces x2). intros l l' F. induction F as [|f f' l l' (Q1 & Q2 & Q3) F IH]; constructor; [|exact IH]. split; [exact Q1|]. split; [exact Q2|]. intros. apply Q3. now apply ME.
  - destruct B1 as [V1 F1], B2 as [V2 F2]. rewrite V1, V2, F1, F2. split; [now exists []|constructor].
Qed.
End CR.

(** *** Sound files *)
Section T.
Context {T : Type} {N : Num T}.
Variables tenth facet hundredth : T.
Variable as_ : assets T.
Variables (depth : string -> nat -> nat) (n fuel : nat).
Hypothesis SD : forall path d, asRead as_ path = Some d -> sound_doc (fst d) (depth path) n.
Hypothesis F : (n <= fuel)%nat.
Lemma alone_total q : mrGUID (rqRef q) <> "" -> exists a, alone tenth facet hundredth as_ fuel q = FOk a /\
  (a <> None <-> exists path table d, asPath as_ (mrGUID (rqRef q)) = Some path /\ asMeta as_ (mrGUID (rqRef q)) = Some table /\ trim_suffix ".fbx" path <> None /\ asRead as_ path = Some d).
Proof.
  intros G. unfold alone, import_mesh. destruct (asPath as_ (mrGUID (rqRef q))) as [path|]; [|exists None; split; [reflexivity|]; split; [congruence|intros (p & t & d & A & _); discriminate]].
  destruct (asMeta as_ (mrGUID (rqRef q))) as [table|]; [|exists None; split; [reflexivity|]; split; [congruence|intros (p & t & d & _ & A & _); discriminate]].
  unfold load_fbx. cbn [lastID no_memory]. replace (String.eqb "" (mrGUID (rqRef q))) with false by (symmetry; apply String.eqb_neq; congruence).
  destruct (trim_suffix ".fbx" path) as [s|] eqn:S; [|exists None; split; [reflexivity|]; split; [congruence|intros (p & t & d & A & _ & B & _); injection A as <-; congruence]].
  destruct (asRead as_ path) as [d|] eqn:R; [|exists None; split; [reflexivity|]; split; [congruence|intros (p & t & d & A & _ & _ & B); injection A as <-; congruence]].
  cbn [snd fbind]. unfold import_doc. destruct (FbxSceneTotal.fbx_total tenth facet (fst d) (depth path) n (SD _ _ R) fuel F (import_options hundredth (recycle_name table (mrFile (rqRef q))) (snd d) (rqMats q) (rqDepth q) (rqTr q)) (rqBase q) (rqObjs q)) as (st & ms & ->).
  cbn [fbind]. assert (X : exists path0 table0 d0, Some path = Some path0 /\ Some table = Some table0 /\ trim_suffix ".fbx" path0 <> None /\ asRead as_ path0 = Some d0) by (exists path, table, d; rewrite S; repeat split; try assumption; discriminate).
  destruct (skipn (length (rqObjs q)) (fsObjs st)) as [|x [|y l]]; cbn [fbind]; eexists; (split; [reflexivity|]); (split; [intros _; exact X|discriminate]).
Qed.
Lemma import_all_total l : Forall (fun q => mrGUID (rqRef q) <> "") l -> Forall2 (fun q r => exists a, r = FOk a /\
  (a <> None <-> exists path table d, asPath as_ (mrGUID (rqRef q)) = Some path /\ asMeta as_ (mrGUID (rqRef q)) = Some table /\ trim_suffix ".fbx" path <> None /\ asRead as_ path = Some d)) l (import_all tenth facet hundredth as_ fuel no_memory l).
Proof.
  intros G. destruct (import_all_ok tenth facet hundredth as_ fuel l no_memory (or_introl eq_refl) G) as (m & E & LE). assert (L : (length l <= m)%nat).
  { destruct LE as [L|(q & Q & X)]; [exact L|]. apply nth_error_In in Q. rewrite Forall_forall in G. destruct (alone_total q (G _ Q)) as (a & A & _). destruct (X _ A). }
  rewrite E, firstn_all2 by exact L. clear E LE L. induction G as [|q l G1 G2 IH]; [constructor|]. constructor; [now apply alone_total|exact IH].
Qed.
End T.

(** What is said of an import alone, said of one of many. *)
Section M.
Context {T : Type} {N : Num T}.
Variables tenth facet hundredth : T.
Variable as_ : assets T.
Lemma import_memory fuel l i a : Forall (fun q => mrGUID (rqRef q) <> "") l -> nth_error (import_all tenth facet hundredth as_ fuel no_memory l) i = Some a ->
  exists q, nth_error l i = Some q /\ import_all tenth facet hundredth as_ fuel no_memory [q] = [a].
Proof.
  intros G H. destruct (import_nth _ _ _ _ _ _ _ _ G H) as (q & Q & ->). exists q. split; [exact Q|]. cbn [import_all]. unfold alone. destruct (import_mesh _ _ _ _ _ _ _ _ _ _ _ _) as [mem [x| |]]; reflexivity.
Qed.
Lemma import_named fuel l i q a : Forall (fun q => mrGUID (rqRef q) <> "") l -> nth_error l i = Some q -> nth_error (import_all tenth facet hundredth as_ fuel no_memory l) i = Some (FOk (Some a)) -> 0 <= rqDepth q ->
  exists path table d, asPath as_ (mrGUID (rqRef q)) = Some path /\ asMeta as_ (mrGUID (rqRef q)) = Some table /\ asRead as_ path = Some d /\
    forall n, recycle_name table (mrFile (rqRef q)) = n -> n <> "" -> named_models (fst d) -> exists coord, fdCoord (fst d) = Some coord /\
     ((not_named (fst d) n /\ adObjs a = []) \/
      exists o vs, first_named (fst d) n o /\ walk (fst d) false [] o vs /\
        Forall2 (fun lb x => stands (fst d) (rqDepth q) (place_below (fst d) (import_place (fst d) coord (rqTr q) (nmul (snd d) hundredth)) (fst lb)) (rqMats q) lb x) (flat_map (labels (fst d) plain_op) vs) (adObjs a)).
Proof.
  intros G Q H D. destruct (import_nth _ _ _ _ _ _ _ _ G H) as (q' & Q' & E). assert (q' = q) by congruence. subst q'. symmetry in E. rewrite Forall_forall in G. destruct (alone_ok _ _ _ _ _ _ _ E (G _ (nth_error_In _ _ Q))) as (path & table & d & A & B & _ & R & I).
  exists path, table, d. split; [exact A|]. split; [exact B|]. split; [exact R|]. intros n <- NN NM. exact (import_doc_named _ _ _ _ _ _ _ _ _ _ _ _ _ D NN NM I).
Qed.
End M.
Lemma import_copies tenth facet hundredth (as_ : assets R) fuel l i j (q1 q2 : request R) a1 a2 k : Forall (fun q => mrGUID (rqRef q) <> "") l -> nth_error l i = Some q1 -> nth_error l j = Some q2 -> 0 <= rqDepth q1 -> 0 <= rqDepth q2 ->
  String.length (mrGUID (rqRef q1)) = String.length (mrGUID (rqRef q2)) ->
  (forall path d coord, asRead as_ path = Some d -> fdCoord (fst d) = Some coord -> affine coord) ->
  nth_error (import_all tenth facet hundredth as_ fuel no_memory l) i = Some (FOk (Some a1)) -> nth_error (import_all tenth facet hundredth as_ fuel no_memory l) j = Some (FOk (Some a2)) -> adKey a1 = Some k -> adKey a2 = Some k ->
  rqRef q1 = rqRef q2 /\ exists x1 x2, adObjs a1 = [x1] /\ adObjs a2 = [x2] /\ oInternal x1 = Some (rqTr q1) /\ oInternal x2 = Some (rqTr q2) /\
    (exists pts, oVerts x1 = map (mat_apply (rqTr q1)) pts /\ oVerts x2 = map (mat_apply (rqTr q2)) pts) /\
    Forall2 (fun f1 f2 => fVerts f1 = fVerts f2 /\ fUVs f1 = fUVs f2 /\ (rqMats q1 = rqMats q2 -> rqMats q1 <> [] -> fMaterial f1 = fMaterial f2)) (oFaces x1) (oFaces x2).
Proof.
  intros G Q1 Q2 D1 D2 GL AF H1 H2. destruct (import_nth _ _ _ _ _ _ _ _ G H1) as (q & Q & E1). assert (q = q1) by congruence. subst q. destruct (import_nth _ _ _ _ _ _ _ _ G H2) as (q & Q' & E2). assert (q = q2) by congruence. subst q.
  rewrite Forall_forall in G. apply copies_ok with (as_ := as_) (tenth := tenth) (facet := facet) (hundredth := hundredth) (fuel := fuel); auto. exact (G _ (nth_error_In _ _ Q1)).
Qed.
