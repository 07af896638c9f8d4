(** Proofs about runs of the tool. *)
From Coq Require Import String Ascii List Bool PeanoNat Lia.
From Verif.Model Require Import Cli CliRun.
From Verif.Spec Require Import CliSpec RunSpec.
From Verif.Proofs Require Import CliProofs CliNames.
From Verif Require Props.C81.
Import ListNotations.
Local Open Scope string_scope.
Local Open Scope list_scope.

Lemma suffix_iff suf s : has_suffix suf s = true <-> ends_in suf s.
Proof.
  unfold ends_in. induction s as [|c s IH]; cbn [has_suffix].
  - rewrite orb_false_r. split.
    + intros H. apply String.eqb_eq in H. subst. exists "". reflexivity.
    + intros [p H]. destruct p; cbn in H; [subst; reflexivity|discriminate].
  - rewrite orb_true_iff, IH, String.eqb_eq. split.
    + intros [<-|[p ->]]; [exists ""; reflexivity|exists (String c p); reflexivity].
    + intros [[|d p] H]; cbn in H; [left; exact H|]. injection H as <- ->. right. exists p. reflexivity.
Qed.
Lemma lower_path p e : path_of_format p e -> lower e = e -> lower (ext p) = e.
Proof. intros (w & X & W) L. rewrite <- (extension_unique _ _ _ X (ext_is p)). exact (C81.lower_written _ _ W L). Qed.

(** The job. *)
Lemma job_of format args e : asked_for format args e -> lower e = e \/ format <> "" -> args <> [] ->
  exists j, make_job format args = Some j /\ jOutputExt j = e /\ jInputExt j = lower (ext (hd "" args)) /\ jInputs j = (match args with [a] => [a] | _ => removelast args end) /\
    (forall a b l, args = a :: b :: l -> jOutput j = last args "").
Proof.
  intros A L N. destruct args as [|a [|b l]]; [congruence| |]; cbn [make_job hd].
  - eexists. split; [reflexivity|]. cbn [jOutputExt jInputExt jInputs jOutput]. split; [|split; [reflexivity|split; [reflexivity|intros; discriminate]]].
    destruct A as [[F ->]|[(-> & (x & y & r & X) & _)|(-> & a' & X & i & P & I & ->)]].
    + destruct format; [congruence|reflexivity].
    + discriminate.
    + injection X as <-. cbn [String.eqb Ascii.eqb Bool.eqb]. unfold default_output_ext, is_mqo. rewrite (lower_path _ _ P); [reflexivity|].
      cbn in I. repeat (destruct I as [<-|I]; [reflexivity|]). destruct I.
  - eexists. split; [reflexivity|]. cbn [jOutputExt jInputExt jInputs jOutput]. split; [|split; [reflexivity|split; [reflexivity|intros x y r X; rewrite X; reflexivity]]].
    destruct A as [[F ->]|[(-> & _ & P)|(-> & a' & X & _)]].
    + destruct format; [congruence|reflexivity].
    + cbn [String.eqb Ascii.eqb Bool.eqb]. apply lower_path; [exact P|]. destruct L as [L|L]; [exact L|congruence].
    + discriminate.
Qed.

Definition formats : list string := [".glb"; ".gltf"; ".vrm"; ".mqo"; ".mqoz"; ".pmx"; ".fbx"].
Lemma reader_ok i e : path_of_format i e -> In e known_formats ->
  exists r, reader_of i = Some r /\ ((e <> ".mqo" /\ e <> ".mqoz") \/ (ends_in ".mqoz" i <-> e = ".mqoz") -> format_read r e).
Proof.
  intros P I. assert (L : lower e = e) by (cbn in I; repeat (destruct I as [<-|I]; [reflexivity|]); destruct I).
  unfold reader_of. rewrite (lower_path _ _ P L). cbn in I.
  destruct I as [<-|[<-|I]].
  - cbn [is_mqo existsb String.eqb Ascii.eqb Bool.eqb orb]. eexists. split; [reflexivity|]. intros [[H _]|H]; [congruence|]. destruct (has_suffix ".mqoz" i) eqn:B; [|reflexivity].
    apply suffix_iff in B. apply H in B. discriminate.
  - cbn [is_mqo existsb String.eqb Ascii.eqb Bool.eqb orb]. eexists. split; [reflexivity|]. intros [[_ H]|H]; [congruence|]. destruct (has_suffix ".mqoz" i) eqn:B; [reflexivity|].
    assert (X : ends_in ".mqoz" i) by (apply H; reflexivity). apply suffix_iff in X. congruence.
  - repeat (destruct I as [<-|I]; [eexists; split; [reflexivity|]; intros _; cbn; tauto|]). destruct I.
Qed.

Theorem run_format format args r e i : run_of format args = Some r -> asked_for format args e -> lower e = e \/ format <> "" -> path_of_format (hd "" args) i -> In i known_formats ->
  (e <> ".mqo" /\ e <> ".mqoz" -> format_written (rnWriter r) = e) /\
  (e = ".mqo" \/ e = ".mqoz" -> format_written (rnWriter r) = ".mqoz" /\ ends_in ".mqoz" (rnOutput r) \/ format_written (rnWriter r) = ".mqo" /\ ~ ends_in ".mqoz" (rnOutput r)).
Proof.
  intros R A L P I. unfold run_of in R. assert (NE : args <> []) by (intros ->; discriminate).
  destruct (job_of format args e A L NE) as (j & J & E & IE & _). rewrite J in R. destruct (reader_of (hd "" args)); [|discriminate]. rewrite E in R.
  assert (G : forall w, gltf_writer e = Some w -> format_written w = e).
  { intros w. unfold gltf_writer. destruct (String.eqb_spec e ".glb") as [->|]; [intros X; injection X as <-; reflexivity|].
    destruct (String.eqb_spec e ".gltf") as [->|]; [intros X; injection X as <-; reflexivity|]. destruct (String.eqb_spec e ".vrm") as [->|]; [intros X; injection X as <-; reflexivity|discriminate]. }
  assert (NG : e = ".mqo" \/ e = ".mqoz" -> gltf_writer e = None /\ is_gltf e = false /\ is_mqo e = true /\ String.eqb e ".fbx" = false) by (intros [-> | ->]; auto).
  destruct (is_gltf (jInputExt j) && is_gltf e) eqn:B1.
  { destruct (gltf_writer e) as [w|] eqn:W; [|discriminate]. injection R as <-. cbn [rnWriter rnOutput]. split; [intros _; apply G; reflexivity|].
    intros M. destruct (NG M) as (X & _). congruence. }
  destruct (String.eqb (jInputExt j) ".fbx" && String.eqb e ".fbx") eqn:B2.
  { injection R as <-. apply andb_prop in B2. destruct B2 as [_ B2]. cbn [rnWriter rnOutput]. split; [intros _; apply String.eqb_eq in B2; rewrite B2; reflexivity|].
    intros M. destruct (NG M) as (_ & _ & _ & X). congruence. }
  unfold doc_writer in R. destruct (is_gltf e) eqn:B3.
  { destruct (gltf_writer e) as [w|] eqn:W; [|discriminate]. injection R as <-. cbn [rnWriter rnOutput]. split; [intros _; apply G; reflexivity|].
    intros M. destruct (NG M) as (X & _). congruence. }
  destruct (is_mqo e) eqn:B4.
  { injection R as <-. cbn [rnWriter rnOutput]. split.
    - intros [M1 M2]. unfold is_mqo in B4. cbn [existsb] in B4. apply String.eqb_neq in M1, M2. rewrite M1, M2 in B4. discriminate.
    - intros _. destruct (has_suffix ".mqoz" (jOutput j)) eqn:S0; [left; split; [reflexivity|apply suffix_iff; exact S0]|right; split; [reflexivity|]].
      intros X. apply suffix_iff in X. congruence. }
  destruct (String.eqb_spec e ".pmx") as [->|]; [|discriminate]. injection R as <-. split; [reflexivity|]. intros [M|M]; discriminate.
Qed.
Theorem run_exists format args e i : asked_for format args e -> path_of_format (hd "" args) i -> args <> [] -> convertible i e -> run_of format args <> None.
Proof.
  intros A P NE [I C]. assert (L : lower e = e).
  { destruct C as [C|[_ ->]]; [|reflexivity]. cbn in C. repeat (destruct C as [<-|C]; [reflexivity|]). destruct C. }
  destruct (job_of format args e A (or_introl L) NE) as (j & J & E & IE & _). unfold run_of. rewrite J. destruct (reader_ok _ _ P I) as (r & R & _). rewrite R, E, IE.
  assert (Li : lower i = i) by (cbn in I; repeat (destruct I as [<-|I]; [reflexivity|]); destruct I). rewrite (lower_path _ _ P Li).
  destruct C as [C|[-> ->]]; [|discriminate].
  destruct (is_gltf i && is_gltf e) eqn:B1.
  { cbn in C. repeat (destruct C as [<-|C]; [try discriminate; rewrite andb_false_r in B1; discriminate|]). destruct C. }
  destruct (String.eqb i ".fbx" && String.eqb e ".fbx"); [discriminate|].
  cbn in C. repeat (destruct C as [<-|C]; [discriminate|]). destruct C.
Qed.
Theorem run_input format args r : run_of format args = Some r -> rnInput r = hd "" args /\ (forall i, path_of_format (hd "" args) i -> In i known_formats ->
  (i <> ".mqo" /\ i <> ".mqoz") \/ (ends_in ".mqoz" (hd "" args) <-> i = ".mqoz") -> format_read (rnReader r) i).
Proof.
  intros R. unfold run_of in R. destruct (make_job format args) as [j|]; [|discriminate]. destruct (reader_of (hd "" args)) as [rd|] eqn:RD; [|discriminate].
  assert (X : rnInput r = hd "" args /\ rnReader r = rd).
  { destruct (is_gltf (jInputExt j) && is_gltf (jOutputExt j)); [destruct (gltf_writer (jOutputExt j)); [|discriminate]; injection R as <-; auto|].
    destruct (String.eqb (jInputExt j) ".fbx" && String.eqb (jOutputExt j) ".fbx"); [injection R as <-; auto|].
    destruct (doc_writer (jOutput j) (jOutputExt j)); [|discriminate]. injection R as <-. auto. }
  destruct X as [X1 X2]. split; [exact X1|]. intros i P I H. destruct (reader_ok _ _ P I) as (r' & R' & F). rewrite X2. rewrite RD in R'. injection R' as ->. apply F. exact H.
Qed.
Theorem run_motions format args r a mid b e : run_of format args = Some r -> args = a :: mid ++ [b] -> asked_for format args e -> lower e = e \/ format <> "" ->
  rnOutput r = b /\ (In e [".glb"; ".gltf"; ".vrm"] -> (forall i, path_of_format a i -> lower i = i -> In i [".glb"; ".gltf"; ".vrm"] -> False) ->
    rnScaled r = true /\ rnEdited r = true /\ forall f, In f (rnMotions r) <-> In f mid /\ lower (ext f) = ".vmd").
Proof.
  intros R E0 A L. assert (NE : args <> []) by (rewrite E0; discriminate). destruct (job_of format args e A L NE) as (j & J & E & IE & IN & OUT).
  assert (O : jOutput j = b).
  { destruct mid as [|m mid]; subst args; cbn [app] in *; rewrite (OUT _ _ _ eq_refl); [reflexivity|]. cbn [last]. destruct (mid ++ [b]) eqn:Q; [destruct mid; discriminate|]. rewrite <- Q. apply last_last. }
  assert (I2 : jInputs j = a :: mid).
  { rewrite IN. destruct mid as [|m mid]; subst args; [reflexivity|]. change (a :: (m :: mid) ++ [b]) with ((a :: m :: mid) ++ [b]). rewrite removelast_last. reflexivity. }
  unfold run_of in R. rewrite J in R. destruct (reader_of (hd "" args)); [|discriminate]. rewrite E in R. split.
  - destruct (is_gltf (jInputExt j) && is_gltf e); [destruct (gltf_writer e); [|discriminate]; injection R as <-; exact O|].
    destruct (String.eqb (jInputExt j) ".fbx" && String.eqb e ".fbx"); [injection R as <-; exact O|]. destruct (doc_writer (jOutput j) e); [|discriminate]. injection R as <-. exact O.
  - intros G NI. assert (GE : is_gltf e = true) by (cbn in G; destruct G as [<-|[<-|[<-|[]]]]; reflexivity).
    assert (FE : String.eqb e ".fbx" = false) by (cbn in G; destruct G as [<-|[<-|[<-|[]]]]; reflexivity).
    assert (GI : is_gltf (jInputExt j) = false).
    { destruct (is_gltf (jInputExt j)) eqn:B; [|reflexivity]. exfalso. rewrite IE, E0 in B. cbn [hd app] in B.
      assert (LL : forall s, lower (lower s) = lower s).
      { induction s as [|c s IH]; [reflexivity|]. cbn [lower]. rewrite IH. f_equal. unfold lower_ascii.
        destruct ((65 <=? nat_of_ascii c)%nat && (nat_of_ascii c <=? 90)%nat) eqn:Q; [|rewrite Q; reflexivity].
        apply andb_prop in Q. destruct Q as [Q1 Q2]. apply Nat.leb_le in Q1, Q2. rewrite nat_ascii_embedding by lia.
        destruct (Nat.leb_spec 65 (nat_of_ascii c + 32)), (Nat.leb_spec (nat_of_ascii c + 32) 90); cbn; try reflexivity; lia. }
      assert (WW : forall s, written s (lower s)).
      { induction s as [|c s IH]; [constructor|]. cbn [lower]. unfold lower_ascii. destruct ((65 <=? nat_of_ascii c)%nat && (nat_of_ascii c <=? 90)%nat) eqn:Q; [|apply written_same; exact IH].
        apply written_capital; [|exact IH]. apply andb_prop in Q. destruct Q as [Q1 Q2]. apply Nat.leb_le in Q1, Q2. exists (nat_of_ascii c - 65)%nat.
        rewrite <- (ascii_nat_embedding c). rewrite nat_ascii_embedding by lia. remember (nat_of_ascii c) as k.
        do 65 (destruct k as [|k]; [lia|]). clear Heqk Q1. do 26 (destruct k as [|k]; [split; reflexivity|]). lia. }
      apply (NI (lower (ext a))); [exists (ext a); split; [apply ext_is|apply WW]|apply LL|]. unfold is_gltf in B. apply existsb_exists in B. destruct B as (x & X & Y). apply String.eqb_eq in Y. rewrite Y. exact X. }
    rewrite GI, FE, andb_false_r in R. cbn [andb] in R. unfold doc_writer in R. rewrite GE in R. destruct (gltf_writer e); [|discriminate]. injection R as <-. cbn [rnScaled rnEdited rnMotions].
    do 2 (split; [reflexivity|]). intros f. rewrite I2. unfold motions. cbn [tl]. rewrite filter_In, String.eqb_eq. tauto.
Qed.
(** Which options are used. *)
Lemma gltf_iff e : is_gltf e = true <-> In e [".glb"; ".gltf"; ".vrm"].
Proof. unfold is_gltf. rewrite existsb_exists. split; [intros (x & I & E); apply String.eqb_eq in E; subst; cbn in *; tauto|intros I; exists e; split; [cbn in *; tauto|apply String.eqb_refl]]. Qed.
Theorem run_options format args r e i : run_of format args = Some r -> asked_for format args e -> lower e = e \/ format <> "" -> path_of_format (hd "" args) i -> In i known_formats ->
  (rnScaled r = true <-> ~ (i = ".fbx" /\ e = ".fbx")) /\
  (rnEdited r = true <-> ~ (i = ".fbx" /\ e = ".fbx") /\ ~ (In i [".glb"; ".gltf"; ".vrm"] /\ In e [".glb"; ".gltf"; ".vrm"])) /\
  (rnEdited r = false \/ ~ In e [".glb"; ".gltf"; ".vrm"] -> rnMotions r = []).
Proof.
  intros R A L P I. unfold run_of in R. assert (NE : args <> []) by (intros ->; discriminate).
  destruct (job_of format args e A L NE) as (j & J & E & IE & _). rewrite J in R. destruct (reader_of (hd "" args)); [|discriminate]. rewrite E, IE in R.
  assert (Li : lower i = i) by (cbn in I; repeat (destruct I as [<-|I]; [reflexivity|]); destruct I). rewrite (lower_path _ _ P Li) in R.
  destruct (is_gltf i && is_gltf e) eqn:B1.
  { apply andb_prop in B1. rewrite !gltf_iff in B1. destruct (gltf_writer e); [|discriminate]. injection R as <-. cbn [rnScaled rnEdited rnMotions].
    split; [|split; [|auto]]; split; try tauto; try discriminate. intros _ [-> _]. destruct B1 as [B1 _]. cbn in B1. intuition discriminate. }
  assert (NG : ~ (In i [".glb"; ".gltf"; ".vrm"] /\ In e [".glb"; ".gltf"; ".vrm"])) by (rewrite <- !gltf_iff; intros [X Y]; rewrite X, Y in B1; discriminate).
  destruct (String.eqb i ".fbx" && String.eqb e ".fbx") eqn:B2.
  { apply andb_prop in B2. rewrite !String.eqb_eq in B2. injection R as <-. cbn [rnScaled rnEdited rnMotions]. split; [|split; [|auto]]; (split; [discriminate|tauto]). }
  assert (NF : ~ (i = ".fbx" /\ e = ".fbx")) by (rewrite <- !String.eqb_eq; intros [X Y]; rewrite X, Y in B2; discriminate).
  destruct (doc_writer (jOutput j) e); [|discriminate]. injection R as <-. cbn [rnScaled rnEdited rnMotions]. split; [tauto|]. split; [tauto|].
  intros [X|X]; [discriminate|]. rewrite <- gltf_iff in X. destruct (is_gltf e); [congruence|reflexivity].
Qed.
