(** Proofs about projects: C92. *)
From Coq Require Import String Ascii List Bool Arith Lia.
From Verif.Model Require Import Cli UnityPackage UnityProject.
From Verif.Spec Require Import PackageSpec ProjectSpec.
From Verif.Proofs Require Import PackageProofs.
Import ListNotations.
Local Open Scope string_scope.
Local Open Scope list_scope.

Lemma sapp_assoc a b c : ((a ++ b) ++ c = a ++ (b ++ c))%string.
Proof. induction a; cbn; [reflexivity|now rewrite IHa]. Qed.
Lemma sapp_nil a : (a ++ "" = a)%string.
Proof. induction a; cbn; [reflexivity|now rewrite IHa]. Qed.
Lemma has_sep_app a b : has_sep (a ++ b)%string = has_sep a || has_sep b.
Proof. induction a as [|c a IH]; cbn; [reflexivity|]. rewrite IH. now destruct (Ascii.eqb c "/"). Qed.

(** ** Splitting. *)
Lemma split_none c : has_sep c = false -> split "/" c = [c].
Proof. induction c as [|x c IH]; [reflexivity|]. cbn [has_sep split]. intro H. apply orb_false_iff in H. destruct H as [H1 H2]. rewrite H1, (IH H2). reflexivity. Qed.
Lemma split_cons c r : has_sep c = false -> split "/" (c ++ "/" ++ r)%string = c :: split "/" r.
Proof.
  induction c as [|x c IH]; [reflexivity|]. cbn [has_sep append split]. intro H. apply orb_false_iff in H. destruct H as [H1 H2]. rewrite H1.
  assert (X := IH H2). cbn [append] in X. rewrite X. reflexivity.
Qed.
Lemma slashed_cons c d r : slashed (c :: d :: r) = (c ++ "/" ++ slashed (d :: r))%string.
Proof. reflexivity. Qed.
Lemma split_slashed p : p <> [] -> Forall (fun c => has_sep c = false) p -> split "/" (slashed p) = p.
Proof.
  induction p as [|c [|d r] IH]; intros N F; [congruence| |]; inversion F as [|? ? F1 F2]; subst.
  - now apply split_none.
  - rewrite slashed_cons, split_cons by exact F1. rewrite IH; [reflexivity|discriminate|exact F2].
Qed.
Lemma slashed_inj p q : p <> [] -> q <> [] -> Forall (fun c => has_sep c = false) p -> Forall (fun c => has_sep c = false) q -> slashed p = slashed q -> p = q.
Proof. intros Np Nq Fp Fq H. rewrite <- (split_slashed p Np Fp), <- (split_slashed q Nq Fq). now rewrite H. Qed.
Lemma name_plain p : Forall name_ok p -> (forall c, In c p -> silent c = false) /\ ~ In ".." p /\ Forall (fun c => has_sep c = false) p.
Proof.
  intro F. rewrite Forall_forall in F. split; [|split].
  - intros c I. destruct (F c I) as (A & B & _ & _). unfold silent. apply orb_false_iff. split; apply String.eqb_neq; assumption.
  - intro I. destruct (F ".." I) as (_ & _ & A & _). now apply A.
  - apply Forall_forall. intros c I. now destruct (F c I) as (_ & _ & _ & A).
Qed.
Lemma join_slashed b p : p <> [] -> Forall name_ok p -> join b (slashed p) = b ++ p.
Proof.
  intros N F. destruct (name_plain p F) as (A & B & C). unfold join. rewrite split_slashed by assumption. rewrite clean_plain by assumption. now rewrite rev_involutive.
Qed.
Lemma slash_first p : p <> [] -> Forall name_ok p -> has_prefix "/" (slashed p) = false.
Proof.
  intros N F. destruct p as [|c r]; [congruence|]. inversion F as [|? ? (A & _ & _ & D) F2]; subst. destruct c as [|x c]; [congruence|]. cbn [has_sep] in D. apply orb_false_iff in D.
  destruct D as [D _]. assert (X : exists s, slashed (String x c :: r) = String x s) by (destruct r; [exists c|exists (c ++ "/" ++ slashed (s :: r))%string]; reflexivity).
  destruct X as [s ->]. cbn [has_prefix]. rewrite Ascii.eqb_sym, D. reflexivity.
Qed.
Lemma located_written cwd ab p : p <> [] -> Forall name_ok p -> located cwd (written ab p) = base cwd ab ++ p.
Proof.
  intros N F. unfold located, written, base. destruct ab.
  - assert (X : has_prefix "/" ("/" ++ slashed p)%string = true) by (destruct (slashed p); reflexivity). rewrite X.
    unfold join. cbn [append split]. rewrite Ascii.eqb_refl. cbn [rev clean String.eqb orb]. apply (join_slashed [] p N F).
  - rewrite slash_first by assumption. now apply join_slashed.
Qed.

(** [filepath.Dir]. *)
Lemma up_none c : has_sep c = false -> up_to_slash c = "".
Proof. destruct c; [reflexivity|]. intro H. cbn [up_to_slash]. now rewrite H. Qed.
Lemma up_app a c : has_sep c = false -> up_to_slash (a ++ String "/" c)%string = (a ++ "/")%string.
Proof.
  intro H. induction a as [|x a IH]; cbn [append up_to_slash].
  - cbn [has_sep]. rewrite Ascii.eqb_refl. cbn [orb]. now rewrite up_none.
  - rewrite IH. cbn [has_sep]. rewrite has_sep_app. cbn [has_sep]. rewrite Ascii.eqb_refl. now rewrite orb_true_r, orb_true_r.
Qed.
Lemma slashed_last p c : p <> [] -> slashed (p ++ [c]) = (slashed p ++ String "/" c)%string.
Proof.
  induction p as [|a [|b r] IH]; intro N; [congruence|reflexivity|]. cbn [app]. rewrite !slashed_cons. cbn [app] in IH. rewrite IH by discriminate. now rewrite !sapp_assoc.
Qed.
Lemma split_end a : split "/" (a ++ "/")%string = split "/" a ++ [""].
Proof.
  induction a as [|x a IH]; [reflexivity|]. cbn [append split]. rewrite IH. destruct (Ascii.eqb x "/"); [reflexivity|].
  destruct (split "/" a) as [|w l] eqn:E; [|reflexivity]. exfalso. clear -E. destruct a; cbn [split] in E; [discriminate|]. destruct (Ascii.eqb a "/"); [discriminate|]. destruct (split "/" a0); discriminate.
Qed.
Lemma clean_blank l : forall acc, clean acc (l ++ [""]) = clean acc l.
Proof. induction l as [|c l IH]; intro acc; cbn [app clean]; [reflexivity|]. destruct (String.eqb c "" || String.eqb c "."); [apply IH|]. destruct (String.eqb c ".."); apply IH. Qed.
Lemma project_written cwd ab p c : Forall name_ok (p ++ [c]) -> project_dir cwd (written ab (p ++ [c])) = base cwd ab ++ p.
Proof.
  intro F. apply Forall_app in F. destruct F as [F G]. inversion G as [|? ? (C1 & C2 & C3 & C4) _]; subst.
  unfold project_dir, written, base. destruct ab.
  - assert (X : has_prefix "/" ("/" ++ slashed (p ++ [c])%list)%string = true) by (destruct (slashed (p ++ [c])); reflexivity). rewrite X.
    destruct p as [|a r].
    + cbn [app slashed]. change ("/" ++ c)%string with ("" ++ String "/" c)%string. rewrite up_app by exact C4. reflexivity.
    + rewrite slashed_last by discriminate. rewrite <- sapp_assoc, up_app by exact C4. unfold join. rewrite split_end, clean_blank.
      cbn [append split]. rewrite Ascii.eqb_refl. cbn [rev clean String.eqb orb]. apply (join_slashed [] (a :: r)); [discriminate|exact F].
  - rewrite slash_first; [|destruct p; discriminate|]. 
    + destruct p as [|a r].
      * cbn [app slashed]. rewrite up_none by exact C4. unfold join. cbn [split clean String.eqb orb]. now rewrite rev_involutive, app_nil_r.
      * rewrite slashed_last by discriminate. rewrite up_app by exact C4. unfold join. rewrite split_end, clean_blank. apply (join_slashed cwd (a :: r)); [discriminate|exact F].
    + apply Forall_app. split; [exact F|]. constructor; [|constructor]. now repeat split.
Qed.

(** ** The argument. *)
Lemma split2_free s : without "#" s -> split2 "#" s = None.
Proof. induction s as [|c s IH]; cbn [without split2]; [reflexivity|]. intros [N H]. apply Ascii.eqb_neq in N. now rewrite N, (IH H). Qed.
Lemma without_app x a b : without x (a ++ b)%string <-> without x a /\ without x b.
Proof. induction a; cbn; [tauto|]. rewrite IHa. tauto. Qed.
Lemma prefix_name w q r : has_sep w = false -> has_sep q = false -> has_prefix (w ++ "/") (q ++ "/" ++ r)%string = true -> w = q.
Proof.
  revert q. induction w as [|a w IH]; intros [|b q] Hw Hq H; cbn [append has_prefix has_sep] in *.
  - reflexivity.
  - rewrite andb_true_r in H. apply orb_false_iff in Hq. destruct Hq as [Hq _]. apply Ascii.eqb_eq in H. subst b. discriminate.
  - apply andb_true_iff in H. destruct H as [H _]. apply orb_false_iff in Hw. destruct Hw as [Hw _]. congruence.
  - apply andb_true_iff in H. destruct H as [H1 H2]. apply Ascii.eqb_eq in H1. subst b. apply orb_false_iff in Hw. apply orb_false_iff in Hq.
    f_equal. apply IH; [apply Hw|apply Hq|exact H2].
Qed.
Lemma first_skip q r : has_sep q = false -> (forall s, q <> (s ++ "Assets")%string) ->
  before_first "Assets/" (q ++ "/" ++ r)%string = match before_first "Assets/" r with Some d => Some (q ++ "/" ++ d)%string | None => None end.
Proof.
  induction q as [|c q IH]; intros Hq N.
  - cbn [append before_first has_prefix Ascii.eqb Bool.eqb andb]. reflexivity.
  - cbn [has_sep] in Hq. assert (Hq0 := Hq). apply orb_false_iff in Hq. destruct Hq as [H1 H2].
    assert (X : has_prefix "Assets/" (String c q ++ "/" ++ r)%string = false).
    { apply not_true_is_false. intro X. apply (prefix_name "Assets" (String c q) r eq_refl Hq0) in X. apply (N ""). now rewrite <- X. }
    assert (Y : forall s, q <> (s ++ "Assets")%string) by (intros s E; apply (N (String c s)); cbn [append]; now rewrite E).
    specialize (IH H2 Y). cbn [append] in *. cbn [before_first]. change (has_prefix "Assets/" (String c (q ++ String "/" r)%string)) with (has_prefix "Assets/" (String c (q ++ String "/" r)%string)) in X.
    rewrite X. rewrite IH. destruct (before_first "Assets/" r); reflexivity.
Qed.
Lemma first_start r : before_first "Assets/" ("Assets/" ++ r)%string = Some "".
Proof. destruct r; reflexivity. Qed.
Lemma first_pre pre rel : rel <> [] -> Forall (fun c => has_sep c = false /\ forall s, c <> (s ++ "Assets")%string) pre ->
  before_first "Assets/" (slashed (pre ++ "Assets" :: rel)) = Some (match pre with [] => "" | _ => slashed pre ++ "/" end)%string.
Proof.
  intros R F. destruct rel as [|x rel]; [congruence|]. induction pre as [|c pre IH]; [apply first_start|]. inversion F as [|? ? [F1 F2] F3]; subst.
  destruct pre as [|d pre].
  - cbn [app]. rewrite slashed_cons, first_skip by assumption. cbn [app] in IH. rewrite (IH (Forall_nil _)). cbn [slashed]. reflexivity.
  - cbn [app] in *. rewrite slashed_cons, first_skip by assumption. rewrite (IH F3). rewrite slashed_cons, !sapp_assoc. reflexivity.
Qed.
Lemma drop_app a b : drop (String.length a) (a ++ b)%string = b.
Proof. induction a; cbn; [now destruct b|exact IHa]. Qed.
Lemma slashed_app pre q : pre <> [] -> q <> [] -> slashed (pre ++ q) = (slashed pre ++ "/" ++ slashed q)%string.
Proof.
  induction pre as [|a [|b r] IH]; intros N M; [congruence| |].
  - cbn [app]. destruct q; [congruence|]. now rewrite slashed_cons.
  - cbn [app]. rewrite !slashed_cons. cbn [app] in IH. rewrite IH by (discriminate || exact M). now rewrite !sapp_assoc.
Qed.
Lemma names_written ab pre rel : rel <> [] -> Forall (fun c => has_sep c = false /\ forall s, c <> (s ++ "Assets")%string) pre ->
  without "#" (slashed (pre ++ "Assets" :: rel)) -> lower (ext (written ab (pre ++ "Assets" :: rel))) <> ".unitypackage" ->
  unity_names (written ab (pre ++ "Assets" :: rel)) = (written ab (pre ++ ["Assets"]), slashed ("Assets" :: rel)).
Proof.
  intros R F W E. unfold unity_names. assert (W' : without "#" (written ab (pre ++ "Assets" :: rel))).
  { unfold written. destruct ab; [|exact W]. cbn [append without]. split; [discriminate|exact W]. }
  rewrite split2_free by exact W'. apply String.eqb_neq in E.
  assert (B : before_first "Assets/" (written ab (pre ++ "Assets" :: rel)) = Some (match pre with [] => if ab then "/" else "" | _ => written ab pre ++ "/" end)%string).
  { unfold written. destruct ab.
    - change ("/" ++ slashed (pre ++ "Assets" :: rel)%list)%string with ("" ++ "/" ++ slashed (pre ++ "Assets" :: rel)%list)%string.
      rewrite first_skip; [|reflexivity|intros s X; destruct s; discriminate]. rewrite first_pre by assumption. destruct pre; reflexivity.
    - rewrite first_pre by assumption. reflexivity. }
  rewrite B, E. f_equal.
  - unfold written. destruct pre as [|a r]; [destruct ab; reflexivity|]. rewrite (slashed_app (a :: r) ["Assets"]) by discriminate. destruct ab; cbn [slashed append]; now rewrite ?sapp_assoc.
  - destruct pre as [|a r].
    + destruct ab; [|reflexivity]. reflexivity.
    + unfold written. rewrite (slashed_app (a :: r) ("Assets" :: rel)) by discriminate. destruct ab.
      * transitivity (drop (String.length (("/" ++ slashed (a :: r)) ++ "/")) ((("/" ++ slashed (a :: r)) ++ "/") ++ slashed ("Assets" :: rel)))%string; [|apply drop_app].
        rewrite !sapp_assoc. reflexivity.
      * transitivity (drop (String.length (slashed (a :: r) ++ "/")) ((slashed (a :: r) ++ "/") ++ slashed ("Assets" :: rel)))%string; [|apply drop_app].
        rewrite !sapp_assoc. reflexivity.
Qed.

(** ** The assets. *)
Lemma trim_spec suf s c : trim_suffix suf s = Some c <-> s = (c ++ suf)%string.
Proof.
  revert c. induction s as [|x s IH]; intro c; cbn [trim_suffix].
  - destruct (String.eqb "" suf) eqn:E.
    + apply String.eqb_eq in E. subst suf. rewrite sapp_nil. split; [intro H; now injection H|congruence].
    + split; [discriminate|]. intro H. destruct c; [cbn in H; subst; discriminate|discriminate].
  - destruct (String.eqb (String x s) suf) eqn:E.
    + apply String.eqb_eq in E. subst suf. split.
      * intro H. injection H as <-. reflexivity.
      * intro H. destruct c as [|y c]; [reflexivity|]. apply (f_equal String.length) in H. rewrite append_length in H. cbn in H. lia.
    + destruct c as [|y c].
      * split; [destruct (trim_suffix suf s); discriminate|]. cbn [append]. intro H. rewrite H, String.eqb_refl in E. discriminate.
      * cbn [append]. destruct (trim_suffix suf s) as [d|] eqn:T.
        -- split.
           ++ intro H. injection H as -> ->. f_equal. now apply IH.
           ++ intro H. injection H as -> H. apply IH in H. congruence.
        -- split; [discriminate|]. intro H. injection H as -> H. apply IH in H. discriminate.
Qed.
Section P.
Variable guid_of : string -> option string.
Variable order : list path -> list path.
Hypothesis order_same : forall l x, In x (order l) <-> In x l.

Lemma visited_in fs root p : In p (visited order fs root) <-> In p (map fst fs) /\ under root p = true.
Proof. unfold visited. rewrite order_same, nodup_In, filter_In. reflexivity. Qed.
Lemma stat_listed fs p n : p <> [] -> stat fs p = Some n -> In p (map fst fs).
Proof. destruct p; [congruence|]. intros _ H. now apply (assoc_listed fs _ n). Qed.
Lemma skipn_under {A} (a b : list A) : skipn (length a) (a ++ b) = b.
Proof. induction a; [reflexivity|exact IHa]. Qed.
(** The assets are those that a meta file below the directory describes. *)
Lemma last_under proj (name : string) q : last (proj ++ name :: q) "" = last (name :: q) "".
Proof. induction proj as [|a l IH]; [reflexivity|]. cbn [app]. rewrite <- IH. cbn [last]. destruct (l ++ name :: q) eqn:E; [destruct l; discriminate|reflexivity]. Qed.
Lemma assets_in fs proj name : disk_ok fs -> stat fs (proj ++ [name]) = Some FDir ->
  forall g t, In (g, t) (scan_assets guid_of order fs proj (proj ++ [name])) <-> (exists t', t = name :: t' /\ t' <> []) /\ described guid_of fs proj t g.
Proof.
  intros D R g t. unfold scan_assets. rewrite in_flat_map. split.
  - intros (p & V & H). apply visited_in in V. destruct V as [V1 V2]. apply under_spec in V2. destruct V2 as [q ->]. rewrite <- app_assoc in H, V1. rewrite skipn_under in H. cbn [app] in H, V1.
    apply in_map_iff in V1. destruct V1 as ([p n] & E & I). cbn [fst] in E. subst p. destruct (D _ _ I) as [D1 D2]. rewrite last_under in D2.
    unfold meta_target in H. destruct (trim_suffix ".meta" (last (name :: q) "")) as [c|] eqn:T; [|destruct H].
    apply trim_spec in T. rewrite T in D2. destruct c as [|x c]; [now destruct D2|]. set (cc := String x c) in *.
    destruct (load_meta guid_of fs proj (removelast (name :: q) ++ [cc])) as [g'|] eqn:M; [|destruct H]. destruct H as [H|[]]. injection H as -> <-.
    unfold load_meta in M. rewrite removelast_last, last_last in M. unfold open_file in M.
    destruct (stat fs (proj ++ removelast (name :: q) ++ [(cc ++ ".meta")%string])) as [[|m]|] eqn:St; [discriminate| |discriminate].
    split.
    + destruct q as [|y q].
      * exfalso. cbn [removelast last app] in *. rewrite <- T in St. congruence.
      * exists (removelast (y :: q) ++ [cc]). split; [reflexivity|apply app_one_nil].
    + exists (removelast (name :: q)), cc, m. repeat split; [discriminate|exact St|exact M].
  - intros [(t' & -> & N) (dir & c & m & E & C & St & G)].
    destruct dir as [|y dir]; [injection E as -> ->; congruence|]. cbn [app] in E. injection E as <- ->.
    exists (proj ++ (name :: dir) ++ [(c ++ ".meta")%string]). split.
    + apply visited_in. split; [apply (stat_listed fs _ (FFile m)); [destruct proj; discriminate|exact St]|]. apply under_spec. exists (dir ++ [(c ++ ".meta")%string]). now rewrite <- app_assoc.
    + rewrite skipn_under. unfold meta_target. rewrite last_last, removelast_last.
      rewrite (proj2 (trim_spec ".meta" (c ++ ".meta") c) eq_refl). destruct c as [|x c]; [congruence|].
      unfold load_meta. rewrite removelast_last, last_last. unfold open_file. rewrite St, G. left. reflexivity.
Qed.
Lemma described_names fs proj t g : disk_ok fs -> t <> [] -> described guid_of fs proj t g -> Forall (fun c => has_sep c = false) t.
Proof.
  intros D N (dir & c & m & -> & C & St & _).
  assert (I : In (proj ++ dir ++ [(c ++ ".meta")%string]) (map fst fs)).
  { apply (stat_listed fs _ (FFile m)); [|exact St]. destruct proj; [destruct dir; discriminate|discriminate]. }
  apply in_map_iff in I. destruct I as ([p n] & E & I). cbn [fst] in E. subst p. destruct (D _ _ I) as [F _]. apply Forall_app in F. destruct F as [_ F]. apply Forall_app in F. destruct F as [F G].
  apply Forall_app. split; [eapply Forall_impl; [|exact F]; intros a (_ & _ & _ & X); exact X|]. constructor; [|constructor]. inversion G as [|? ? (_ & _ & _ & X) _]; subst.
  rewrite has_sep_app in X. now apply orb_false_iff in X.
Qed.
Lemma described_fun fs proj t g g' : described guid_of fs proj t g -> described guid_of fs proj t g' -> g = g'.
Proof. intros (d & c & m & -> & _ & S & G) (d' & c' & m' & E & _ & S' & G'). apply app_inj_tail in E. destruct E as [-> ->]. congruence. Qed.
Lemma asset_at_spec fs proj name : disk_ok fs -> stat fs (proj ++ [name]) = Some FDir -> forall t g, Forall (fun c => has_sep c = false) (name :: t) -> t <> [] ->
  (asset_at (scan_assets guid_of order fs proj (proj ++ [name])) (slashed (name :: t)) = Some (g, name :: t) <-> described guid_of fs proj (name :: t) g).
Proof.
  intros D R t g F N. assert (A := assets_in fs proj name D R). unfold asset_at. set (l := scan_assets guid_of order fs proj (proj ++ [name])) in *. split.
  - intro H. apply last_with_in in H. destruct H as [H _]. now apply A in H.
  - intro H. assert (I : In (g, name :: t) l) by (apply A; split; [now exists t|exact H]).
    destruct (last_with (fun x => String.eqb (slashed (snd x)) (slashed (name :: t))) l) as [[g' t']|] eqn:E.
    + apply last_with_in in E. destruct E as [E1 E2]. cbn [snd] in E2. apply String.eqb_eq in E2. apply A in E1. destruct E1 as [(u & -> & U) E1].
      apply slashed_inj in E2; [|discriminate|discriminate|apply (described_names fs proj _ g' D); [discriminate|exact E1]|exact F]. injection E2 as ->. now rewrite (described_fun _ _ _ _ _ E1 H).
    + apply (proj1 (last_with_none _ _) E) in I. cbn [snd] in I. now rewrite String.eqb_refl in I.
Qed.
(** A scene given by its path is the one that is loaded. *)
Lemma scene_loaded fs cwd ab pre rel d g : disk_ok fs -> Forall name_ok (pre ++ "Assets" :: rel) -> rel <> [] -> without "#" (slashed (pre ++ "Assets" :: rel)) ->
  lower (ext (written ab (pre ++ "Assets" :: rel))) <> ".unitypackage" -> Forall (fun c => forall s, c <> (s ++ "Assets")%string) pre ->
  stat fs (base cwd ab ++ pre ++ ["Assets"]) = Some FDir -> stat fs (base cwd ab ++ pre ++ "Assets" :: rel) = Some (FFile d) ->
  described guid_of fs (base cwd ab ++ pre) ("Assets" :: rel) g ->
  scene_content guid_of order fs cwd (written ab (pre ++ "Assets" :: rel)) = Some d.
Proof.
  intros D F R W E P S1 S2 H. unfold scene_content.
  assert (F0 := F). apply Forall_app in F0. destruct F0 as [F1 F2].
  rewrite names_written; [|exact R| |exact W|exact E].
  2: { rewrite Forall_forall in *. intros c I. split; [|now apply P]. now destruct (F1 c I) as (_ & _ & _ & X). }
  assert (F3 : Forall name_ok (pre ++ ["Assets"])) by (apply Forall_app; split; [exact F1|]; constructor; [now inversion F2|constructor]).
  unfold open_assets. rewrite located_written; [|apply app_one_nil|exact F3]. rewrite project_written by exact F3. rewrite app_assoc.
  assert (X : choose_scene (scan_assets guid_of order fs (base cwd ab ++ pre) ((base cwd ab ++ pre) ++ ["Assets"])) (slashed ("Assets" :: rel)) = Some (g, "Assets" :: rel)).
  { unfold choose_scene. rewrite (proj2 (asset_at_spec fs (base cwd ab ++ pre) "Assets" D ltac:(rewrite <- app_assoc; exact S1) rel g ltac:(apply (name_plain _ F2)) R) H). reflexivity. }
  rewrite X. unfold open_in, open_file. cbn [snd]. rewrite <- app_assoc, S2. reflexivity.
Qed.
End P.

(** ** The only scene. *)
Lemma asset_of_unique a : NoDup (map fst a) -> forall x, In x a -> asset_of a (fst x) = Some x.
Proof.
  intros N x I. unfold asset_of. destruct (last_with (fun y => String.eqb (fst y) (fst x)) a) as [y|] eqn:E.
  - apply last_with_in in E. destruct E as [E1 E2]. apply String.eqb_eq in E2. f_equal. clear -N I E1 E2.
    induction a as [|z a IH]; [destruct I|]. inversion N as [|? ? N1 N2]; subst. destruct I as [->|I], E1 as [->|E1]; [reflexivity| | |now apply IH].
    + destruct N1. rewrite <- E2. now apply in_map.
    + destruct N1. rewrite E2. now apply in_map.
  - apply (proj1 (last_with_none _ _) E) in I. now rewrite String.eqb_refl in I.
Qed.
Lemma all_assets_unique a : NoDup (map fst a) -> all_assets a = a.
Proof.
  intro N. unfold all_assets. rewrite nodup_fixed_point by exact N.
  assert (X : forall l, (forall x, In x l -> In x a) -> flat_map (fun g => match asset_of a g with Some x => [x] | None => [] end) (map fst l) = l).
  { induction l as [|x l IH]; intro H; [reflexivity|]. cbn [map flat_map]. rewrite (asset_of_unique a N x) by (apply H; now left). cbn [app]. f_equal. apply IH. intros y Y. apply H. now right. }
  apply X. auto.
Qed.
Lemma only_scene a x : NoDup (map fst a) -> NoDup (map (fun y => slashed (snd y)) a) -> (forall y, In y a -> slashed (snd y) <> "") ->
  (choose_scene a "" = Some x <-> In x a /\ is_scene x = true /\ forall y, In y a -> is_scene y = true -> y = x).
Proof.
  intros N M E. unfold choose_scene. rewrite all_assets_unique by exact N.
  assert (Z : asset_at a "" = None).
  { unfold asset_at. apply last_with_none. intros y Y. apply String.eqb_neq. now apply E. }
  rewrite Z. 
  assert (At : forall y, In y a -> asset_at a (slashed (snd y)) = Some y).
  { intros y Y. unfold asset_at. destruct (last_with (fun z => String.eqb (slashed (snd z)) (slashed (snd y))) a) as [z|] eqn:L.
    - apply last_with_in in L. destruct L as [L1 L2]. apply String.eqb_eq in L2. f_equal. clear -M Y L1 L2.
      induction a as [|w a IH]; [destruct Y|]. cbn [map] in M. inversion M as [|? ? M1 M2]; subst. destruct Y as [->|Y], L1 as [->|L1]; [reflexivity| | |now apply IH].
      + destruct M1. rewrite <- L2. now apply (in_map (fun v => slashed (snd v))).
      + destruct M1. rewrite L2. now apply (in_map (fun v => slashed (snd v))).
    - apply (proj1 (last_with_none _ _) L) in Y. now rewrite String.eqb_refl in Y. }
  assert (FI : forall y, In y (filter is_scene a) <-> In y a /\ is_scene y = true) by (intro y; apply filter_In).
  assert (ND : NoDup (filter is_scene a)) by (apply NoDup_filter; clear -N; induction a; [constructor|]; inversion N as [|? ? N1 N2]; subst; constructor; [intro I; destruct N1; now apply in_map|now apply IHa]).
  destruct (filter is_scene a) as [|y [|z l]] eqn:F.
  - split; [discriminate|]. intros (I & S & _). now destruct (proj2 (FI x) (conj I S)).
  - assert (Y := proj1 (FI y) (or_introl eq_refl)). rewrite (At y) by apply Y. split.
    + intro H. injection H as <-. split; [apply Y|]. split; [apply Y|]. intros w W1 W2. destruct (proj2 (FI w) (conj W1 W2)) as [<-|[]]. reflexivity.
    + intros (I & S & U). f_equal. apply U; apply Y.
  - split; [discriminate|]. intros (I & S & U). assert (A := proj1 (FI y) (or_introl eq_refl)). assert (B := proj1 (FI z) (or_intror (or_introl eq_refl))).
    rewrite (U y (proj1 A) (proj2 A)), (U z (proj1 B) (proj2 B)) in ND. inversion ND as [|? ? X _]; subst. destruct X. now left.
Qed.
