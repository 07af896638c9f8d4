(** Loading ends and does not crash: C95. *)
From Coq Require Import String Ascii List ZArith Bool Lia.
From Verif.Model Require Import Vec Cli UnityProject UnityScene.
From Verif.Spec Require Import CliSpec PrefabSpec.
From Verif.Proofs Require Import CliProofs ModProofs PrefabProofs.
Import ListNotations.
Local Open Scope string_scope.
Local Open Scope list_scope.
Local Open Scope Z_scope.

Section P.
Context {T : Type}.
Variables (zero : T) (of_int : Z -> T) (to_int : T -> Z).
Variable files : string -> option (list (Z * @udoc T)).
Variable order : list (sref * list addr) -> list (sref * list addr).
Notation load := (load zero of_int to_int files order).
Notation load_docs := (load_docs zero of_int to_int order).
Notation place_prefab := (place_prefab zero of_int to_int).
Notation modify := (modify zero of_int to_int).
Notation modify_all := (modify_all zero of_int to_int).

(** The scenes of instances, as far as they exist. *)
Definition used (ds : list (Z * @udoc T)) (g : string) : Prop := exists id i q, In (id, DPrefab (Some i)) ds /\ piOld i = false /\ piSource i = Some q /\ srFile q <> 0 /\ srGuid q = g.
Lemma docs_ext rec rec' guid ds : (forall g, used ds g -> rec g = rec' g) -> forall st, load_docs rec guid ds st = load_docs rec' guid ds st.
Proof.
  induction ds as [|[id d] ds IH]; intros H st; [reflexivity|]. assert (H1 : forall g, used ds g -> rec g = rec' g) by (intros g (id' & i & q & A & B); apply H; exists id', i, q; split; [now right|exact B]).
  cbn [UnityScene.load_docs]. destruct d as [[g|]|[t|]|[x|]|[i|]|]; try apply (IH H1); try reflexivity.
  destruct (piOld i || negb (valid (piSource i))) eqn:E; [apply (IH H1)|]. apply orb_false_iff in E. destruct E as [E1 E2]. destruct (piSource i) as [q|] eqn:Q; [|discriminate].
  rewrite (H (srGuid q)).
  - destruct (rec' (srGuid q)); try reflexivity; [|apply (IH H1)]. destruct (place_prefab guid id i s st); [apply (IH H1)|reflexivity].
  - exists id, i, q. cbn [valid] in E2. rewrite negb_involutive in E2. apply Z.eqb_neq in E2. split; [now left|auto].
Qed.
Lemma docs_fuel rec guid ds : (forall g, used ds g -> rec g <> LFuel) -> forall st, load_docs rec guid ds st <> LFuel.
Proof.
  induction ds as [|[id d] ds IH]; intros H st; [discriminate|]. assert (H1 : forall g, used ds g -> rec g <> LFuel) by (intros g (id' & i & q & A & B); apply H; exists id', i, q; split; [now right|exact B]).
  cbn [UnityScene.load_docs]. destruct d as [[g|]|[t|]|[x|]|[i|]|]; try apply (IH H1); try discriminate.
  destruct (piOld i || negb (valid (piSource i))) eqn:E; [apply (IH H1)|]. apply orb_false_iff in E. destruct E as [E1 E2]. destruct (piSource i) as [q|] eqn:Q; [|discriminate].
  assert (X : rec (srGuid q) <> LFuel) by (apply H; exists id, i, q; cbn [valid] in E2; rewrite negb_involutive in E2; apply Z.eqb_neq in E2; split; [now left|auto]).
  destruct (rec (srGuid q)); try discriminate; [|apply (IH H1)|now destruct X]. destruct (place_prefab guid id i s st); [apply (IH H1)|discriminate].
Qed.
(** Enough fuel is as good as more. *)
Lemma used_rank rank g ds g' : ranked files rank -> files g = Some ds -> used ds g' -> (rank g' < rank g)%nat.
Proof. intros R F (id & i & q & A & B & C & D & <-). exact (R g ds id i q F A B C D). Qed.
Lemma load_enough rank : ranked files rank -> forall g n, (rank g < n)%nat -> load n g <> LFuel /\ forall m, (rank g < m)%nat -> load m g = load n g.
Proof.
  intro R. assert (X : forall k g, (rank g < k)%nat -> forall n, (rank g < n)%nat -> load n g <> LFuel /\ forall m, (rank g < m)%nat -> load m g = load n g).
  { induction k as [|k IH]; intros g K n N; [lia|]. destruct n as [|n]; [lia|]. cbn [UnityScene.load]. destruct (files g) as [ds|] eqn:F.
    - assert (U := used_rank rank g ds). split.
      + apply docs_fuel. intros g' H. specialize (U g' R F H). apply (IH g'); lia.
      + intros [|m] M; [lia|]. cbn [UnityScene.load]. rewrite F. apply docs_ext. intros g' H. specialize (U g' R F H). apply (IH g'); lia.
    - split; [discriminate|]. intros [|m] M; [lia|]. cbn [UnityScene.load]. now rewrite F. }
  intros g n N. exact (X (S (rank g)) g (Nat.lt_succ_diag_r _) n N).
Qed.

(** ** No crash *)
Lemma no_index (m : @pmod T) : (forall a b, pmPath m <> (a ++ ".Array.data[" ++ b)%string) -> array_index (split "." (pmPath m)) = NoIndex.
Proof.
  intro H. destruct (split "." (pmPath m)) as [|a [|b [|c [|? ?]]]] eqn:E; try reflexivity. cbn [array_index]. destruct (String.eqb_spec b "Array") as [->|]; [|reflexivity]. cbn [andb].
  destruct (has_prefix "data[" c) eqn:P; [|reflexivity]. exfalso.
  assert (Q : exists r, c = ("data[" ++ r)%string).
  { clear -P. do 5 (destruct c as [|? c]; [discriminate|]; cbn [has_prefix] in P; apply andb_true_iff in P; destruct P as [P0 P]; apply Ascii.eqb_eq in P0; subst). now exists c. }
  destruct Q as (r & ->). apply (H a r). rewrite <- (concat_split "." (pmPath m)), E. reflexivity.
Qed.
Lemma modify_safe m e : safe_mod m -> exists e', modify m e = Some e'.
Proof.
  intros [H|(n & N & H)].
  - apply no_index in H. unfold UnityScene.modify. rewrite H. unfold set_v3, set_v4. destruct e as [g|t|r|x|]; cbn [set_str set_int set_ref set_refs keep_slice keep_plain omap];
    repeat match goal with |- context [if ?b then _ else _] => destruct b end; eexists; reflexivity.
  - assert (S0 := material_split n). assert (Ix := material_index n N). unfold UnityScene.modify. rewrite H, Ix, S0. cbn [hd]. destruct e as [g|t|r|x|]; try (eexists; reflexivity).
    change (String.eqb "m_Materials" "m_Enabled") with false. change (String.eqb "m_Materials" "m_Materials") with true. cbn iota. cbn [set_refs]. replace (Z.of_nat n <? 0) with false by (symmetry; apply Z.ltb_ge; lia).
    destruct (Z.of_nat n <? Z.of_nat (length (urMaterials r))); eexists; reflexivity.
Qed.
Lemma modify_all_safe ms : Forall safe_mod ms -> forall s, exists s', modify_all ms s = Some s'.
Proof.
  induction 1 as [|m r M _ IH]; intro s; cbn [UnityScene.modify_all]; [now exists s|]. destruct (get_element2 s [] (pmTarget m) None) as [a|]; [|apply IH]. destruct (find_elem (scElems s) (snd a)) as [e|]; [|apply IH].
  destruct (modify_safe m e M) as (e' & ->). apply IH.
Qed.
Lemma place_safe guid id i s st : piParent i <> None -> Forall safe_mod (piMods i) -> exists st', place_prefab guid id i s st = Some st'.
Proof.
  intros P M. unfold UnityScene.place_prefab. destruct (scRoots s) as [|root l].
  - destruct (modify_all_safe _ M s) as (s' & ->). now eexists.
  - destruct (object_transform s root) as [ta|].
    + destruct (piParent i) as [par|]; [|now destruct P]. cbn zeta. destruct (modify_all_safe _ M (update_at (fst ta) (snd ta) (set_father (mkSRef (srFile par) guid (srType par))) s)) as (s' & ->). now eexists.
    + destruct (modify_all_safe _ M s) as (s' & ->). now eexists.
Qed.
Lemma docs_safe rec guid ds : (forall g, rec g <> LCrash) -> (forall id d, In (id, d) ds -> safe_doc d) -> forall st, load_docs rec guid ds st <> LCrash.
Proof.
  intro R. induction ds as [|[id d] ds IH]; intros H st; [discriminate|]. assert (H0 := H id d (or_introl eq_refl)). assert (H1 : forall id d, In (id, d) ds -> safe_doc d) by (intros id' d' I; apply (H id' d'); now right).
  cbn [UnityScene.load_docs]. destruct d as [[g|]|[t|]|[x|]|[i|]|]; try apply (IH H1); [destruct H0|]. destruct (piOld i || negb (valid (piSource i))); [apply (IH H1)|]. assert (Q := R match piSource i with Some q => srGuid q | None => "" end).
  destruct (rec match piSource i with Some q => srGuid q | None => "" end) as [ps| | |]; try discriminate; [|apply (IH H1)|now destruct Q]. destruct H0 as [P M]. destruct (place_safe guid id i ps st P M) as (st' & ->). apply (IH H1).
Qed.
Lemma load_safe : (forall g ds id d, files g = Some ds -> In (id, d) ds -> safe_doc d) -> forall n g, load n g <> LCrash.
Proof.
  intro H. induction n as [|n IH]; intro g; [discriminate|]. cbn [UnityScene.load]. destruct (files g) as [ds|] eqn:F; [|discriminate]. apply docs_safe; [exact IH|]. intros id d. now apply (H g ds).
Qed.
Lemma load_error n g : load (S n) g = LError <-> files g = None.
Proof.
  cbn [UnityScene.load]. destruct (files g) as [ds|]; [|tauto]. split; [|discriminate]. intro H. exfalso. revert H. generalize (@mkLS T [] [] []). induction ds as [|[id d] ds IH]; intros st; [discriminate|]. cbn [UnityScene.load_docs].
  destruct d as [[x|]|[t|]|[x|]|[i|]|]; try apply IH; try discriminate. destruct (piOld i || negb (valid (piSource i))); [apply IH|]. destruct (load n match piSource i with Some q => srGuid q | None => "" end); try discriminate; [|apply IH].
  destruct (place_prefab g id i s st); [apply IH|discriminate].
Qed.
Lemma load_ends rank : ranked files rank -> (forall g ds id d, files g = Some ds -> In (id, d) ds -> safe_doc d) -> forall g, files g <> None -> exists s, forall n, (rank g < n)%nat -> load n g = Loaded s.
Proof.
  intros R S0 g F. destruct (load_enough rank R g (S (rank g))) as [A B]; [lia|]. assert (C := load_safe S0 (S (rank g)) g). assert (D := load_error (rank g) g).
  destruct (load (S (rank g)) g) as [s| | |] eqn:E; [|now destruct F; apply D|now destruct C|now destruct A]. exists s. intros n N. now apply B.
Qed.
End P.
