(** The bones of a converted FBX document are its skeleton. *)
From Coq Require Import String Ascii List ZArith Bool Lia.
From Verif.Model Require Import Num Vec Matrix Mqo MqoDoc Mmd2Mqo FbxDoc Fbx2Mqo.
From Verif.Spec Require Import FbxSceneSpec FbxMeshSpec FbxBoneSpec.
From Verif.Proofs Require Mmd2MqoFaces.
From Verif.Proofs Require Import FbxDocProofs FbxWalk FbxTree FbxObjects FbxFaces FbxSceneTotal.
Import ListNotations.
Local Open Scope list_scope.
Local Open Scope Z_scope.

(** *** Weights *)
Section W.
Context {T : Type}.
Lemma weight_set (ws : list (Z * list (Z * T))) obj v w uid : weights_in (set_vertex_weight ws obj v w) uid = if uid =? obj then weights_in ws uid ++ [(v, w)] else weights_in ws uid.
Proof.
  induction ws as [|[o l] ws IH]; cbn [set_vertex_weight].
  - unfold weights_in. cbn. rewrite (Z.eqb_sym obj uid). now destruct (uid =? obj).
  - destruct (Z.eqb_spec o obj) as [->|NE].
    + unfold weights_in. cbn [find fst]. rewrite (Z.eqb_sym obj uid). now destruct (uid =? obj).
    + unfold weights_in in *. cbn [find fst]. destruct (Z.eqb_spec o uid) as [->|]; [|exact IH]. now rewrite (proj2 (Z.eqb_neq uid obj) NE).
Qed.
Lemma weight_keys (ws : list (Z * list (Z * T))) obj v w : NoDup (map fst ws) -> NoDup (map fst (set_vertex_weight ws obj v w)) /\ (forall k, In k (map fst (set_vertex_weight ws obj v w)) -> k = obj \/ In k (map fst ws)).
Proof.
  induction ws as [|[o l] ws IH]; cbn [set_vertex_weight map fst]; intros ND; [split; [repeat constructor; intros []|intros k [<-|[]]; now left]|]. inversion ND; subst. destruct (IH H2) as [A B]. destruct (Z.eqb_spec o obj); cbn [map fst].
  - split; [exact ND|now right].
  - split; [constructor; [|exact A]; intros I; apply B in I; tauto|]. intros k [<-|I]; [right; now left|]. apply B in I. cbn. tauto.
Qed.
Lemma weight_fold (l : list (Z * T)) obj : forall ws, NoDup (map fst ws) -> let ws' := fold_left (fun ws p => set_vertex_weight ws obj (fst p + 1) (snd p)) l ws in
  NoDup (map fst ws') /\ forall uid, weights_in ws' uid = weights_in ws uid ++ (if uid =? obj then map (fun q => (fst q + 1, snd q)) l else []).
Proof.
  induction l as [|p l IH]; intros ws ND; cbn [fold_left map].
  - split; [exact ND|]. intros uid. destruct (uid =? obj); now rewrite app_nil_r.
  - destruct (IH (set_vertex_weight ws obj (fst p + 1) (snd p))) as [A B]; [now apply weight_keys|]. split; [exact A|]. intros uid. rewrite B, weight_set. destruct (uid =? obj); [now rewrite <- app_assoc|reflexivity].
Qed.
End W.

Section B.
Context {T : Type} {N : Num T}.
Variable d : fdoc T.
Variable depth : nat -> nat.
Hypothesis TD : tree_doc d depth.
Variable full : nat.
Variable coord : mat4 T.

Lemma world_more : forall f o w, world_matrix d f o = FOk w -> forall f', (f <= f')%nat -> world_matrix d f' o = FOk w.
Proof.
  unfold world_matrix. induction f as [|f IH]; intros o w H f' L; [discriminate|]. destruct f' as [|f']; [lia|]. cbn [world] in *. destruct (parent d o) as [p|]; [|exact H].
  destruct (world mat_mul (local d) (parent d) f p) as [m|] eqn:E; [|discriminate]. specialize (IH p m). rewrite E in IH. specialize (IH eq_refl f' ltac:(lia)). destruct (world mat_mul (local d) (parent d) f' p); [|discriminate]. injection IH as ->. exact H.
Qed.
Lemma tree_depth o p : parent d o = Some p -> depth o = S (depth p).
Proof.
  unfold parent. fold (links d). intros H. assert (S := parent_of_spec o (links d)). rewrite H in S. destruct S as (a & b & L & _). assert (I : In (o, p) (links d)) by (rewrite L; apply in_or_app; right; now left).
  exact (td_depth _ _ TD _ _ I).
Qed.

(** A model that may follow [M]. *)
Definition next (M : list nat) (x : nat) : Prop := ~ In x M /\ x <> fdScene d /\ forall p, parent d x = Some p -> p = fdScene d \/ In p M.
Inductive ready : list nat -> list nat -> Prop :=
| ready_nil M : ready M []
| ready_cons M x l : next M x -> ready (M ++ [x]) l -> ready M (x :: l).
Lemma ready_snoc M l x : ready M l -> next (M ++ l) x -> ready M (l ++ [x]).
Proof.
  induction 1 as [M|M y l Ny R IH]; intros Nx; cbn [app]; [rewrite app_nil_r in Nx; constructor; [exact Nx|constructor]|]. constructor; [exact Ny|]. apply IH. now rewrite <- app_assoc.
Qed.
Lemma ready_app M l : ready M l -> forall x, In x l -> ~ In x M /\ x <> fdScene d.
Proof. induction 1 as [M|M y l Ny R IH]; intros x; [intros []|]. intros [<-|I]; [split; apply Ny|]. destruct (IH _ I) as [A B]. split; [|exact B]. intro J. apply A, in_or_app. now left. Qed.

(** The models of the skeleton so far are closed towards the scene. *)
Definition closed (M : list nat) : Prop := forall x p, In x M -> parent d x = Some p -> p = fdScene d \/ In p M.
Lemma path_ok (M : list nat) : forall f known extra o p, (forall x, In x known <-> In x M \/ In x extra) -> (forall x, In x extra -> depth o < depth x)%nat -> bone_path d f known (Some o) = FOk p ->
  ready M (rev p) /\ (forall x, In x p -> up d o x) /\ (o <> fdScene d -> In o M \/ In o p) /\ (forall x q, In x p -> parent d x = Some q -> q = fdScene d \/ In q M \/ In q p) /\ (forall x, In x p -> depth x <= depth o)%nat.
Proof.
  induction f as [|f IH]; intros known extra o p K X H; cbn [bone_path] in H; destruct (Nat.eqb_spec o (fdScene d)) as [Eo|No].
  1, 3: injection H as <-; split; [constructor|]; split; [intros x []|]; split; [congruence|]; split; intros x; intros; contradiction.
  all: destruct (existsb (Nat.eqb o) known) eqn:EK.
  1, 3: injection H as <-; split; [constructor|]; split; [intros x []|]; split; [|split; intros x; intros; contradiction]; intros _; left;
    apply existsb_exists in EK; destruct EK as (y & I & Y); apply Nat.eqb_eq in Y; subst y; apply K in I; destruct I as [I|I]; [exact I|apply X in I; lia].
  - discriminate.
  - unbind H. injection H as <-.
    assert (NM : ~ In o M) by (intros I; assert (I' : In o known) by (apply K; now left); assert (existsb (Nat.eqb o) known = true) by (apply existsb_exists; exists o; now rewrite Nat.eqb_refl); congruence).
    destruct (parent d o) as [q|] eqn:P.
    + assert (Dq := tree_depth _ _ P). destruct (IH (o :: known) (o :: extra) q a) as (A1 & A2 & A3 & A4 & A5); [intros x; cbn; rewrite K; tauto|intros x [<-|I]; [lia|apply X in I; lia]|exact E|].
      assert (NO : ~ In o a) by (intros I; apply A5 in I; lia).
      split; [|split; [|split; [|split]]].
      * cbn [rev]. apply ready_snoc; [exact A1|]. split; [intros I; apply in_app_or in I; destruct I as [I|I]; [contradiction|apply in_rev in I; contradiction]|]. split; [exact No|]. intros p Pp. rewrite P in Pp. injection Pp as <-.
        destruct (Nat.eq_dec q (fdScene d)) as [->|Nq]; [now left|]. right. apply in_or_app. destruct (A3 Nq) as [I|I]; [now left|right; now apply in_rev in I].
      * intros x [<-|I]; [apply up_refl|]. apply up_step with q; [exact P|now apply A2].
      * intros _. right. now left.
      * intros x p [<-|I] Pp; [|destruct (A4 _ _ I Pp) as [Q|[Q|Q]]; [now left|right; now left|right; right; now right]]. rewrite P in Pp. injection Pp as <-. destruct (Nat.eq_dec q (fdScene d)) as [->|Nq]; [now left|]. right. destruct (A3 Nq) as [I|I]; [now left|right; now right].
      * intros x [<-|I]; [lia|apply A5 in I; lia].
    + assert (a = []) as -> by (destruct f; cbn in E; now injection E as <-). split; [|split; [|split; [|split]]].
      * cbn [rev app]. constructor; [|constructor]. split; [exact NM|]. split; [exact No|congruence].
      * intros x [<-|[]]. apply up_refl.
      * intros _. right. now left.
      * intros x p [<-|[]] Pp. congruence.
      * intros x [<-|[]]. lia.
Qed.

(** *** The invariant *)
Definition inv (js : list (nat * Z)) (M : list nat) (s : list (bone T) * list (nat * Z)) : Prop :=
  length (fst s) = length M /\ NoDup M /\ ~ In (fdScene d) M /\ ~ In (fdScene d) (map fst (snd s)) /\ closed M /\
  (forall i m, nth_error M i = Some m -> map_find (snd s) m = Some (Z.of_nat i + 1)) /\
  (forall i m b, nth_error M i = Some m -> nth_error (fst s) i = Some b -> bone_for d coord js M i m b).

Lemma bone_for_more js M M' i m b : bone_for d coord js M i m b -> bone_for d coord js (M ++ M') i m b.
Proof.
  intros (A & B & C & R). split; [exact A|]. split; [exact B|]. split; [|exact R]. destruct (parent d m) as [p|]; [|exact C]. destruct (Nat.eqb p (fdScene d)); [exact C|]. destruct C as (j & L & E & P). exists j. split; [exact L|]. split; [|exact P].
  rewrite nth_error_app1; [exact E|]. apply nth_error_Some. congruence.
Qed.
Lemma add_ok js : forall l M s s', inv js M s -> ready M l -> (forall x, In x l -> bindings d js x = []) -> ffold (add_bone d full coord) l s = FOk s' ->
  inv js (M ++ l) s' /\ (forall x, In x (map fst (snd s')) <-> In x l \/ In x (map fst (snd s))).
Proof.
  induction l as [|x l IH]; intros M [bs mp] s' I R NB H; cbn [ffold] in H; [injection H as <-; rewrite app_nil_r; split; [exact I|cbn; tauto]|].
  inversion R as [|? ? ? (NX & XS & PX) R']; subst. destruct I as (L & ND & SM & SK & CL & F & G). cbn [fst snd] in *. unbind H. unfold add_bone in E. unbind E. injection E as <-.
  specialize (IH (M ++ [x])). rewrite <- app_assoc in IH. cbn [app] in IH.
  match type of H with ffold _ _ ?s0 = _ => assert (I' : inv js (M ++ [x]) s0) end.
  2: { destruct (IH _ _ I' R' ltac:(intros y Y; apply NB; now right) H) as [A B]. split; [exact A|]. intros y. rewrite B. cbn [map fst snd In]. tauto. }
  split; [|split; [|split; [|split; [|split; [|split]]]]].
  - cbn [fst]. rewrite !app_length, L. reflexivity.
  - apply NoDup_snoc; assumption.
  - intros I. apply in_app_or in I. destruct I as [I|[I|[]]]; [contradiction|congruence].
  - cbn [snd map fst]. intros [I|I]; [congruence|contradiction].
  - intros y p I P. apply in_app_or in I. destruct I as [I|[<-|[]]]; [destruct (CL y p I P)|destruct (PX p P)]; auto; right; apply in_or_app; now left.
  - intros i m E. cbn [snd]. rewrite map_find_cons. destruct (Nat.lt_ge_cases i (length M)) as [Li|Li].
    + rewrite nth_error_app1 in E by exact Li. destruct (Nat.eqb_spec x m) as [->|]; [exfalso; apply NX; exact (nth_error_In _ _ E)|]. now apply F.
    + rewrite nth_error_app2 in E by exact Li. destruct (i - length M)%nat as [|k] eqn:K; [|destruct k; discriminate E]. injection E as <-. rewrite Nat.eqb_refl. f_equal. lia.
  - intros i m b E Eb. cbn [fst] in Eb. destruct (Nat.lt_ge_cases i (length M)) as [Li|Li].
    + rewrite nth_error_app1 in E by exact Li. rewrite nth_error_app1 in Eb by lia. apply bone_for_more. now apply G.
    + rewrite nth_error_app2 in E by exact Li. rewrite nth_error_app2 in Eb by lia. rewrite L in Eb. destruct (i - length M)%nat as [|k] eqn:K; [|destruct k; discriminate E]. injection E as <-. injection Eb as <-.
      split; [cbn [bID]; lia|]. split; [reflexivity|]. split; [|split; [|split]].
      * cbn [bParent]. destruct (parent d x) as [p|] eqn:P; [|reflexivity]. destruct (Nat.eqb_spec p (fdScene d)) as [->|Np].
        -- unfold map_find. destruct (find (fun e => Nat.eqb (fst e) (fdScene d)) mp) as [e|] eqn:FE; [|reflexivity]. exfalso. apply find_some in FE. destruct FE as [I Q]. apply Nat.eqb_eq in Q. apply SK. rewrite <- Q. now apply in_map.
        -- destruct (PX p eq_refl) as [|I]; [contradiction|]. apply In_nth_error in I. destruct I as (j & J). exists j. rewrite (F j p J). assert (j < length M)%nat by (apply nth_error_Some; congruence). split; [lia|]. split; [now rewrite nth_error_app1|reflexivity].
      * rewrite NB by (now left). cbn [bPos rev bone_at]. exists a0. split; [|reflexivity]. exists full. intros f Lf. now apply world_more with full.
      * constructor.
      * intros uid. now rewrite NB by (now left).
Qed.

Lemma bindings_app js js' m : bindings d (js ++ js') m = bindings d js m ++ bindings d js' m.
Proof. unfold bindings. apply flat_map_app. Qed.
Lemma up_closed M o x : closed M -> In o M -> up d o x -> x = fdScene d \/ In x M.
Proof.
  intros C I U. induction U as [m|m p x P U IH]; [now right|]. destruct (C _ _ I P) as [->|I']; [|now apply IH]. left. assert (PS := parent_scene d depth TD). inversion U; subst; [reflexivity|congruence].
Qed.
Lemma keys_ok js M s : inv js M s -> (forall x, In x (map fst (snd s)) -> In x M) -> forall x, In x (map fst (snd s)) <-> In x M.
Proof.
  intros (_ & _ & _ & _ & _ & F & _) H x. split; [apply H|]. intros I. apply In_nth_error in I. destruct I as (i & I). apply F in I. unfold map_find in I. destruct (find _ _) as [e|] eqn:E; [|discriminate]. apply find_some in E. destruct E as [E Q]. apply Nat.eqb_eq in Q. rewrite <- Q. now apply in_map.
Qed.

(** All that is known after the jobs [js]. *)
Definition whole (js : list (nat * Z)) (M : list nat) (s : list (bone T) * list (nat * Z)) : Prop :=
  inv js M s /\ (forall x, In x (map fst (snd s)) <-> In x M) /\ (forall x, In x M <-> skeleton d js x).
Lemma idle js M s j : whole js M s -> (forall m, bindings d [j] m = []) -> whole (js ++ [j]) M s.
Proof.
  intros (I & K & S) B. assert (E : forall m, bindings d (js ++ [j]) m = bindings d js m) by (intros m; now rewrite bindings_app, B, app_nil_r). split; [|split; [exact K|]].
  - destruct I as (A1 & A2 & A3 & A4 & A5 & A6 & A7). repeat (split; [assumption|]). intros i m b Em Eb. unfold bone_for. rewrite E. exact (A7 i m b Em Eb).
  - intros x. rewrite S. unfold skeleton. split; intros (NS & m & NB & U); (split; [exact NS|]); exists m; (split; [|exact U]); [now rewrite E|now rewrite E in NB].
Qed.
Lemma step_ok js M s j s' : whole js M s -> bone_step d full coord s j = FOk s' -> exists M', whole (js ++ [j]) (M ++ M') s'.
Proof.
  intros WH H. unfold bone_step in H.
  assert (IDLE : (forall m, bindings d [j] m = []) -> s' = s -> exists M', whole (js ++ [j]) (M ++ M') s') by (intros B ->; exists []; rewrite app_nil_r; now apply idle).
  assert (BJ : forall m, bindings d [j] m = match fdObjs d (fst j) with Some (ODef f) => match find (is_model d) (refs d (fst j)) with Some x => if Nat.eqb x m then [(f, snd j)] else [] | None => [] end | _ => [] end) by (intros m; cbn; now rewrite app_nil_r).
  destruct (fdObjs d (fst j)) as [[]|] eqn:O; try (injection H as <-; apply IDLE; [exact BJ|reflexivity]). destruct (find (is_model d) (refs d (fst j))) as [m|] eqn:FM; [|injection H as <-; apply IDLE; [exact BJ|reflexivity]].
  clear IDLE. destruct WH as (I & K & SK). unbind H. rename a into p. unbind H. rename a into s1. unbind H. apply fopt_ok in E1. injection H as <-.
  destruct (path_ok M _ _ [] m p (fun x => ltac:(rewrite K; cbn; tauto)) ltac:(intros x []) E) as (R & U & IN & CL & _).
  assert (NB : forall x, In x (rev p) -> bindings d js x = []).
  { intros x X. destruct (bindings d js x) as [|b l] eqn:B; [reflexivity|]. exfalso. destruct (ready_app _ _ R _ X) as [NM NS]. apply NM, SK. split; [exact NS|]. exists x. split; [congruence|apply up_refl]. }
  destruct I as (A1 & A2 & A3 & A4 & A5 & A6 & A7).
  destruct (add_ok js (rev p) M (fst s, map (fun k => (k, 0)) (rev p) ++ snd s) s1) as [I1 K1].
  { split; [exact A1|]. split; [exact A2|]. split; [exact A3|]. cbn [fst snd]. split; [|split; [exact A5|split; [|exact A7]]].
    - rewrite map_app, map_map, map_id. intros I. apply in_app_or in I. destruct I as [I|I]; [|contradiction]. now apply (ready_app _ _ R) in I.
    - intros i x X. rewrite map_find_zeros; [now apply A6|]. intros I. apply (ready_app _ _ R) in I. destruct I as [I _]. apply I. exact (nth_error_In _ _ X). }
  { exact R. } { exact NB. } { exact E0. }
  assert (KK : forall x, In x (map fst (snd s1)) <-> In x (M ++ rev p)) by (intros x; rewrite K1; cbn [snd]; rewrite map_app, map_map, map_id, !in_app_iff, K; tauto).
  assert (NS : m <> fdScene d).
  { intros ->. destruct I1 as (_ & _ & _ & S1 & _). unfold map_find in E1. destruct (find (fun e => Nat.eqb (fst e) (fdScene d)) (snd s1)) as [e|] eqn:FE; [|discriminate E1].
    apply find_some in FE. destruct FE as [X Q]. apply Nat.eqb_eq in Q. apply S1. rewrite <- Q. now apply in_map. }
  assert (IM : In m (M ++ rev p)) by (apply in_or_app; destruct (IN NS) as [X|X]; [now left|right; now apply in_rev in X]).
  destruct (In_nth_error _ _ IM) as (i & Ei). destruct I1 as (B1 & B2 & B3 & B4 & B5 & B6 & B7). rewrite (B6 _ _ Ei) in E1. assert (Zi : Z.of_nat i + 1 - 1 = Z.of_nat i) by lia. rewrite (B6 _ _ Ei), Zi, Nat2Z.id. rewrite Zi, zidx_nat in E1.
  assert (Li : (i < length (fst s1))%nat) by (apply nth_error_Some; congruence).
  exists (rev p). split; [|split; [exact KK|]].
  - split; [cbn [fst]; now rewrite Mmd2MqoFaces.list_set_length|]. split; [exact B2|]. split; [exact B3|]. split; [exact B4|]. split; [exact B5|]. split; [exact B6|].
    intros k x b X Xb. cbn [fst] in Xb. rewrite Mmd2MqoFaces.list_set_nth in Xb by exact Li. destruct (Nat.eqb_spec k i) as [->|Nk].
    + injection Xb as <-. rewrite Ei in X. injection X as <-. destruct (B7 i m a Ei E1) as (G1 & G2 & G3 & _ & G5 & G6). unfold bone_for, add_weights. cbn [bID bName bParent bPos bWeights]. rewrite bindings_app, BJ, Nat.eqb_refl.
      split; [exact G1|]. split; [exact G2|]. split; [exact G3|]. split; [|].
      * unfold bone_at. now rewrite rev_app_distr.
      * unfold given. destruct (Nat.eqb (length (dfWeights f)) (length (dfIndexes f))) eqn:LE.
        -- destruct (weight_fold (combine (dfIndexes f) (dfWeights f)) (snd j) (bWeights a) G5) as [W1 W2]. split; [exact W1|]. intros uid. rewrite W2, G6, flat_map_app. cbn [flat_map fst snd]. rewrite LE, app_nil_r, (Z.eqb_sym (snd j)). reflexivity.
        -- split; [exact G5|]. intros uid. rewrite G6, flat_map_app. cbn [flat_map fst snd]. rewrite LE. destruct (snd j =? uid); cbn; now rewrite app_nil_r.
    + assert (Nx : Nat.eqb m x = false) by (apply Nat.eqb_neq; intros ->; apply Nk; apply (proj1 (NoDup_nth_error _) B2); [apply nth_error_Some; congruence|congruence]).
      unfold bone_for. rewrite bindings_app, BJ, Nx, app_nil_r. exact (B7 k x b X Xb).
  - intros x. split.
    + intros X. apply in_app_or in X. destruct X as [X|X].
      * apply SK in X. destruct X as (NSx & y & NBy & Uy). split; [exact NSx|]. exists y. split; [|exact Uy]. rewrite bindings_app. now destruct (bindings d js y).
      * split; [now apply (ready_app _ _ R) in X|]. exists m. split; [|apply U; now apply in_rev]. rewrite bindings_app, BJ, Nat.eqb_refl. now destruct (bindings d js m).
    + intros (NSx & y & NBy & Uy). assert (Y : In y (M ++ rev p)).
      { rewrite bindings_app, BJ in NBy. destruct (Nat.eqb_spec m y) as [Em|]; [now rewrite <- Em|]. rewrite app_nil_r in NBy. apply in_or_app. left. apply SK. split; [|exists y; split; [exact NBy|apply up_refl]].
        intros Ey. assert (PS := parent_scene d depth TD). destruct Uy; congruence. }
      destruct (up_closed _ _ _ B5 Y Uy) as [->|]; [congruence|assumption].
Qed.
Lemma steps_ok : forall js' js M s s', whole js M s -> ffold (bone_step d full coord) js' s = FOk s' -> exists M', whole (js ++ js') M' s'.
Proof.
  induction js' as [|j js' IH]; intros js M s s' WH H; cbn [ffold] in H; [injection H as <-; exists M; now rewrite app_nil_r|]. unbind H. destruct (step_ok _ _ _ _ _ WH E) as (M1 & W1). destruct (IH _ _ _ _ W1 H) as (M2 & W2). exists M2. now rewrite <- app_assoc in W2.
Qed.
Lemma start_ok : whole [] [] ([], []).
Proof.
  split; [|split; [cbn; tauto|]].
  - split; [reflexivity|]. split; [constructor|]. split; [intros []|]. split; [intros []|]. split; [intros x p []|]. split; intros [|i] m; discriminate.
  - intros x. split; [intros []|]. intros (_ & m & H & _). now apply H.
Qed.
End B.

Section F.
Context {T : Type} {N : Num T}.
Lemma blocks_jobs facet (d : fdoc T) op base top n vs oss ms js : blocks facet d op base top n vs oss ms js ->
  js = flat_map (fun q => match snd q with b :: _ => bound_by d op (last (fst q) 0%nat) (oUID b) | [] => [] end) (combine vs oss) /\ length vs = length oss.
Proof.
  induction 1 as [n|n path vs os oss ms mss js jss Bl B [-> IH]]; [split; reflexivity|]. cbn [combine flat_map fst snd length]. split; [|now f_equal]. f_equal. destruct Bl as (mats & M & X). unfold bound_by. destruct (geometry d (last path 0%nat)) as [[k g]|].
  - destruct X as (fs & ts & _ & _ & -> & _ & ->). reflexivity.
  - destruct X as (-> & _ & ->). now destruct (opNoBones op).
Qed.
Lemma fbx_bones tenth facet (d : fdoc T) op depth fuel base objs st mats : opTarget op = ""%string -> tree_doc d depth -> convert_fbx tenth facet d fuel op objs base = FOk (st, mats) ->
  exists coord vs oss M, fdCoord d = Some coord /\ (forall o, In o (map (fun p => last p 0%nat) vs) <-> shown d op o) /\ fsObjs st = objs ++ concat oss /\ length vs = length oss /\
    let js := flat_map (fun q => match snd q with b :: _ => bound_by d op (last (fst q) 0%nat) (oUID b) | [] => [] end) (combine vs oss) in
    NoDup M /\ (forall x, In x M <-> skeleton d js x) /\ length (fsBones st) = length M /\
    (forall i m b, nth_error M i = Some m -> nth_error (fsBones st) i = Some b -> bone_for d coord js M i m b).
Proof.
  intros OT TD H. destruct (fbx_ok _ _ _ _ _ _ _ _ _ OT H) as (coord & sel & vs & oss & ms & js & s & CO & TS & W & B & J & E & _).
  destruct (blocks_jobs _ _ _ _ _ _ _ _ _ _ B) as [EJ L]. destruct (steps_ok d depth TD fuel coord js [] [] ([], []) s (start_ok d coord) J) as (M & (I & K & SK)). cbn [app] in *.
  exists coord, vs, oss, M. split; [exact CO|]. split; [exact (walks_shown d op sel vs TS W)|]. split; [now rewrite E|]. split; [exact L|]. cbn zeta. rewrite <- EJ. destruct I as (A1 & A2 & _ & _ & _ & _ & A7). rewrite E. cbn [fsBones]. auto.
Qed.
End F.
