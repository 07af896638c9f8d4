(** Humanoid bones of a VRM configuration. *)
From Coq Require Import String List ZArith Bool Lia.
From Verif.Model Require Import Num Vec MqoDoc VrmConfig.
From Verif Require Import Spec.VrmSpec Proofs.Mqo2MmdProofs.
Import ListNotations.
Local Open Scope list_scope.

Lemma node_id_some nodes name id : node_id nodes name = Some id <-> last_named nodes name id.
Proof.
  unfold node_id. split.
  - intros H. destruct (last_index_Some _ _ _ H) as (a & x & b & -> & <- & Hq & F). apply String.eqb_eq in Hq. split.
    + exists x. rewrite nth_error_app2, Nat.sub_diag by lia. auto.
    + intros j m Hj Hm. destruct (le_lt_dec j (length a)) as [L|L]; [exact L|]. exfalso. rewrite nth_error_app2 in Hj by lia. replace (j - length a)%nat with (S (j - length a - 1)) in Hj by lia.
      cbn in Hj. apply nth_error_In in Hj. rewrite Forall_forall in F. specialize (F m Hj). rewrite Hm, String.eqb_refl in F. discriminate.
  - intros ((n & Hn & Hm) & M). destruct (last_index _ nodes) as [i|] eqn:E.
    + destruct (last_index_Some _ _ _ E) as (a & x & b & -> & <- & Hq & F). apply String.eqb_eq in Hq. f_equal. apply Nat.le_antisymm.
      * apply (M _ x); [rewrite nth_error_app2, Nat.sub_diag by lia; reflexivity|exact Hq].
      * destruct (le_lt_dec id (length a)) as [L|L]; [exact L|]. exfalso. rewrite nth_error_app2 in Hn by lia. replace (id - length a)%nat with (S (id - length a - 1)) in Hn by lia.
        cbn in Hn. apply nth_error_In in Hn. rewrite Forall_forall in F. specialize (F n Hn). rewrite Hm, String.eqb_refl in F. discriminate.
    + exfalso. apply last_index_None in E. rewrite Forall_forall in E. specialize (E n (nth_error_In _ _ Hn)). cbn in E. rewrite Hm, String.eqb_refl in E. discriminate.
Qed.
Lemma node_id_none nodes name : node_id nodes name = None -> forall id, ~ last_named nodes name id.
Proof. intros H id L. apply node_id_some in L. congruence. Qed.
Lemma mesh_false nodes id : has_mesh nodes id = false <-> forall n, nth_error nodes id = Some n -> vnMesh n = None.
Proof.
  unfold has_mesh. destruct (nth_error nodes id) as [n|]; [|split; [intros _ n H; discriminate|reflexivity]]. split.
  - intros H m E. injection E as <-. destruct (vnMesh n); [discriminate|reflexivity].
  - intros H. rewrite (H n eq_refl). reflexivity.
Qed.
Lemma named_unique nodes name i j : last_named nodes name i -> last_named nodes name j -> i = j.
Proof. intros Hi Hj. apply node_id_some in Hi, Hj. congruence. Qed.

Lemma mapping_names_of m : mapping_names m = names_of m.
Proof. unfold mapping_names, names_of. cbn [filter]. destruct (String.eqb (bmOld m) ""); cbn; [rewrite app_nil_r; reflexivity|reflexivity]. Qed.
Lemma pick_some nodes names id : pick_node nodes names = Some id -> chosen nodes names id.
Proof.
  induction names as [|n r IH]; cbn [pick_node]; [discriminate|]. destruct (node_id nodes n) as [k|] eqn:E.
  - destruct (has_mesh nodes k) eqn:Hm.
    + intros H. destruct (IH H) as (a & x & b & -> & B & F). exists (n :: a), x, b. split; [reflexivity|]. split; [exact B|].
      intros y j [<-|Hy]; [|apply F, Hy]. intros (L & NM). apply mesh_false in NM. apply node_id_some in E. rewrite (named_unique _ _ _ _ L E) in NM. congruence.
    + intros H. injection H as <-. exists [], n, r. split; [reflexivity|]. split; [|intros y j []]. split; [apply node_id_some, E|apply mesh_false, Hm].
  - intros H. destruct (IH H) as (a & x & b & -> & B & F). exists (n :: a), x, b. split; [reflexivity|]. split; [exact B|].
    intros y j [<-|Hy]; [|apply F, Hy]. intros (L & _). apply (node_id_none _ _ E _ L).
Qed.
Lemma pick_none nodes names : pick_node nodes names = None -> forall y j, In y names -> ~ bone_node nodes y j.
Proof.
  induction names as [|n r IH]; cbn [pick_node]; intros H y j Hy; [destruct Hy|]. destruct (node_id nodes n) as [k|] eqn:E.
  - destruct (has_mesh nodes k) eqn:Hm; [|discriminate]. destruct Hy as [<-|Hy]; [|apply (IH H y j Hy)]. intros (L & NM). apply mesh_false in NM. apply node_id_some in E. rewrite (named_unique _ _ _ _ L E) in NM. congruence.
  - destruct Hy as [<-|Hy]; [|apply (IH H y j Hy)]. intros (L & _). apply (node_id_none _ _ E _ L).
Qed.
Lemma chosen_unique nodes names i j : chosen nodes names i -> chosen nodes names j -> i = j.
Proof.
  intros (a & x & b & -> & B & F) (a' & x' & b' & E & B' & F'). assert (a = a' /\ x = x') as (-> & ->).
  { revert a' E F F' . induction a as [|y a IH]; intros [|y' a'] E F F'; cbn in E.
    - injection E as <- _. auto.
    - injection E as -> _. exfalso. apply (F' y' i); [left; reflexivity|exact B].
    - injection E as <- _. exfalso. apply (F y j); [left; reflexivity|exact B'].
    - injection E as -> E. destruct (IH a' E) as (-> & ->); [intros z k Hz; apply F; right; exact Hz|intros z k Hz; apply F'; right; exact Hz|auto]. }
  apply (named_unique _ _ _ _ (proj1 B) (proj1 B')).
Qed.
Lemma chosen_some nodes names i : chosen nodes names i -> pick_node nodes names = Some i.
Proof.
  intros C. destruct (pick_node nodes names) as [j|] eqn:E.
  - f_equal. eapply chosen_unique; [apply pick_some, E|exact C].
  - exfalso. destruct C as (a & x & b & -> & B & _). eapply (pick_none _ _ E x i); [apply in_or_app; right; left; reflexivity|exact B].
Qed.
Lemma pick_undecided nodes m : names_of m <> [] -> pick_node nodes (names_of m) = None <-> undecided nodes m.
Proof.
  intros NE. split.
  - intros H. split; [exact NE|]. apply pick_none, H.
  - intros (_ & H). destruct (pick_node nodes (names_of m)) as [i|] eqn:E; [|reflexivity]. exfalso. destruct (pick_some _ _ _ E) as (a & x & b & Ex & B & _).
    apply (H x i); [rewrite Ex; apply in_or_app; right; left; reflexivity|exact B].
Qed.

(** The state of the loop over the mappings [done], for one name. *)
Definition entry_at (nodes : list vnode) (done : list bmap) (bones : list hbone) (b : string) (z : option Z) : Prop :=
  match z with
  | None => (forall m, In m done -> bmBone m = b -> undecided nodes m) /\ (forall h, In h bones -> hbName h <> b)
  | Some z => exists m, decides nodes done b m /\
      (names_of m = [] /\ z = (-1)%Z /\ (forall h, In h bones -> hbName h <> b) \/
       exists id, names_of m <> [] /\ chosen nodes (names_of m) id /\ z = Z.of_nat id /\
         In (mkHB b id (bmDefault m || negb (bmLimits m))) bones)
  end.
Definition entry (nodes : list vnode) (done : list bmap) (found : list (string * Z)) (bones : list hbone) : Prop :=
  NoDup (map hbName bones) /\ forall b, entry_at nodes done bones b (found_at found b).

Lemma decides_more nodes done m b m0 : decides nodes done b m0 -> decides nodes (done ++ [m]) b m0.
Proof. intros (pre & post & -> & H). exists pre, (post ++ [m]). split; [rewrite <- app_assoc; reflexivity|exact H]. Qed.
Lemma at_more nodes done m bones more b z : entry_at nodes done bones b z -> (bmBone m <> b \/ undecided nodes m \/ z <> None) -> (forall h, In h more -> hbName h <> b) ->
  entry_at nodes (done ++ [m]) (bones ++ more) b z.
Proof.
  intros E C M. destruct z as [z|]; cbn [entry_at] in *.
  - destruct E as (m0 & D & [(A1 & A2 & A3)|(id & A1 & A2 & A3 & A4)]); exists m0; (split; [apply decides_more, D|]).
    + left. split; [exact A1|]. split; [exact A2|]. intros h Hh. apply in_app_or in Hh as [Hh|Hh]; auto.
    + right. exists id. split; [exact A1|]. split; [exact A2|]. split; [exact A3|]. apply in_or_app. left. exact A4.
  - destruct E as (U & B). split.
    + intros m' Hm Eb. apply in_app_or in Hm as [Hm|[<-|[]]]; [apply U; assumption|]. destruct C as [C|[C|C]]; [contradiction|exact C|congruence].
    + intros h Hh. apply in_app_or in Hh as [Hh|Hh]; auto.
Qed.
Lemma map_bones_entry nodes maps : forall done found bones, entry nodes done found bones ->
  let '(found', bones') := map_bones nodes maps found bones in entry nodes (done ++ maps) found' bones'.
Proof.
  induction maps as [|m r IH]; intros done found bones (ND & E); cbn [map_bones]; [rewrite app_nil_r; split; assumption|].
  replace (done ++ m :: r) with ((done ++ [m]) ++ r) by (rewrite <- app_assoc; reflexivity).
  destruct (found_at found (bmBone m)) as [z|] eqn:Ef.
  - apply IH. split; [exact ND|]. intros b. rewrite <- (app_nil_r bones). apply at_more; [apply E| |intros h []].
    destruct (string_dec (bmBone m) b) as [<-|Ne]; [|auto]. right. right. congruence.
  - rewrite mapping_names_of. pose proof (E (bmBone m)) as E0. rewrite Ef in E0. destruct E0 as (U & B).
    assert (DEC : ~ undecided nodes m -> decides nodes (done ++ [m]) (bmBone m) m) by (intros NU; exists done, []; split; [reflexivity|]; split; [reflexivity|]; split; [exact NU|exact U]).
    destruct (names_of m) as [|n0 ns] eqn:En.
    + apply IH. split; [exact ND|]. intros b. cbn [found_at]. destruct (String.eqb_spec (bmBone m) b) as [<-|Ne].
      * exists m. split; [apply DEC; intros (NE & _); congruence|]. left. auto.
      * rewrite <- (app_nil_r bones). apply at_more; [apply E|auto|intros h []].
    + rewrite <- En. assert (NE : names_of m <> []) by congruence. destruct (pick_node nodes (names_of m)) as [id|] eqn:Ep.
      * apply IH. split.
        -- rewrite map_app. cbn [map hbName]. apply NoDup_rev in ND. rewrite <- (rev_involutive (_ ++ _)), rev_app_distr. apply NoDup_rev. cbn. constructor; [|exact ND].
           rewrite <- in_rev. intros Hin. apply in_map_iff in Hin as (h & Hn & Hh). apply (B h Hh Hn).
        -- intros b. cbn [found_at]. destruct (String.eqb_spec (bmBone m) b) as [<-|Ne].
           ++ exists m. split; [apply DEC; intros Un; apply (pick_undecided _ _ NE) in Un; congruence|]. right. exists id. split; [exact NE|]. split; [apply pick_some, Ep|]. split; [reflexivity|].
              apply in_or_app. right. left. reflexivity.
           ++ apply at_more; [apply E|auto|]. intros h [<-|[]]. exact Ne.
      * apply IH. split; [exact ND|]. intros b. rewrite <- (app_nil_r bones). apply at_more; [apply E| |intros h []]. right. left. apply (pick_undecided _ _ NE), Ep.
Qed.
Lemma humanoid_entry nodes maps found bones : map_bones nodes maps [] [] = (found, bones) -> entry nodes maps found bones.
Proof.
  intros H. pose proof (map_bones_entry nodes maps [] [] []) as K. rewrite H in K. apply K. split; [constructor|]. intros b. split; intros ? [].
Qed.

Lemma required_nodup : NoDup required_bones.
Proof. unfold required_bones. repeat (constructor; [cbn; intuition discriminate|]). constructor. Qed.
Lemma fallback_in nodes found h : In h (fallback_bones nodes found) <-> exists b id, In b required_bones /\ found_at found b = None /\ last_named nodes b id /\ h = mkHB b id true.
Proof.
  unfold fallback_bones. rewrite in_flat_map. split.
  - intros (b & Hb & Hin). destruct (found_at found b) eqn:E; [destruct Hin|]. destruct (node_id nodes b) as [id|] eqn:En; [|destruct Hin]. destruct Hin as [<-|[]]. apply node_id_some in En. eauto 8.
  - intros (b & id & Hb & E & L & ->). exists b. split; [exact Hb|]. rewrite E. apply node_id_some in L. rewrite L. left. reflexivity.
Qed.
Lemma fallback_nodup nodes found : NoDup (map hbName (fallback_bones nodes found)).
Proof.
  unfold fallback_bones. pose proof required_nodup as ND. induction required_bones as [|b l IH]; [constructor|]. inversion ND as [|? ? N1 N2]; subst. cbn [flat_map]. rewrite map_app.
  assert (K : forall x, In x (map hbName (flat_map (fun b => match found_at found b with Some _ => [] | None => match node_id nodes b with Some id => [mkHB b id true] | None => [] end end) l)) -> In x l).
  { intros x Hx. apply in_map_iff in Hx as (h & <- & Hh). apply in_flat_map in Hh as (c & Hc & Hin). destruct (found_at found c); [destruct Hin|]. destruct (node_id nodes c); [|destruct Hin]. destruct Hin as [<-|[]]. exact Hc. }
  destruct (found_at found b); [apply IH, N2|]. destruct (node_id nodes b) as [id|]; [|apply IH, N2]. cbn [map app]. constructor; [|apply IH, N2]. intros Hin. apply N1, K, Hin.
Qed.

Theorem humanoid_once nodes maps : NoDup (map hbName (fst (humanoid nodes maps))).
Proof.
  unfold humanoid. destruct (map_bones nodes maps [] []) as [found bones] eqn:E. cbn [fst]. destruct (humanoid_entry _ _ _ _ E) as (ND & EN). rewrite map_app.
  assert (D : forall x, In x (map hbName bones) -> ~ In x (map hbName (fallback_bones nodes found))).
  { intros x Hx Hf. apply in_map_iff in Hf as (h & <- & Hh). apply fallback_in in Hh as (b & id & Hb & Ef & _ & ->). cbn [hbName] in Hx. specialize (EN b). rewrite Ef in EN. destruct EN as (_ & B).
    apply in_map_iff in Hx as (h & Hn & Hh). apply (B h Hh Hn). }
  clear E EN. induction (map hbName bones) as [|x l IH]; [apply fallback_nodup|]. inversion ND as [|? ? N1 N2]; subst. cbn [app]. constructor.
  - intros Hin. apply in_app_or in Hin as [Hin|Hin]; [contradiction|]. apply (D x (or_introl eq_refl) Hin).
  - apply IH; [exact N2|]. intros y Hy. apply D. right. exact Hy.
Qed.
Lemma decides_unique nodes maps b m m' : decides nodes maps b m -> decides nodes maps b m' -> m = m'.
Proof.
  intros (pre & post & -> & Hb & NU & F) (pre' & post' & E & Hb' & NU' & F'). revert pre' E F F'. induction pre as [|x pre IH]; intros [|x' pre'] E F F'; cbn in E.
  - injection E as -> _. reflexivity.
  - injection E as -> _. exfalso. apply NU, F'; [left; reflexivity|exact Hb].
  - injection E as <- _. exfalso. apply NU', F; [left; reflexivity|exact Hb'].
  - injection E as -> E. apply (IH pre' E); intros y Hy; [apply F|apply F']; right; exact Hy.
Qed.
Theorem humanoid_exact nodes maps b id d : In (mkHB b id d) (fst (humanoid nodes maps)) <->
  (exists m, decides nodes maps b m /\ names_of m <> [] /\ chosen nodes (names_of m) id /\ d = (bmDefault m || negb (bmLimits m))%bool) \/
  ((forall m, In m maps -> bmBone m = b -> undecided nodes m) /\ In b required_bones /\ last_named nodes b id /\ d = true).
Proof.
  unfold humanoid. destruct (map_bones nodes maps [] []) as [found bones] eqn:E. cbn [fst]. destruct (humanoid_entry _ _ _ _ E) as (ND & EN). specialize (EN b).
  rewrite in_app_iff, fallback_in. split.
  - intros [Hin|(b' & id' & Hb & Ef & L & Eq)].
    + left. destruct (found_at found b) as [z|]; [|destruct EN as (_ & B); contradiction (B _ Hin eq_refl)]. destruct EN as (m & D & [(_ & _ & B)|(id' & A1 & A2 & A3 & A4)]); [contradiction (B _ Hin eq_refl)|].
      assert (Same : mkHB b id d = mkHB b id' (bmDefault m || negb (bmLimits m))).
      { clear - ND Hin A4. induction bones as [|h l IH]; [destruct Hin|]. cbn [map] in ND. inversion ND as [|? ? N1 N2]; subst. destruct Hin as [->|Hin], A4 as [A4|A4].
        - congruence.
        - exfalso. apply N1. apply in_map_iff. eexists. split; [|exact A4]. reflexivity.
        - exfalso. apply N1. subst h. apply in_map_iff. eexists. split; [|exact Hin]. reflexivity.
        - apply IH; assumption. }
      injection Same as -> ->. exists m. auto.
    + right. injection Eq as -> -> ->. rewrite Ef in EN. destruct EN as (U & _). auto.
  - intros [(m & D & NE & C & ->)|(U & Hb & L & ->)].
    + left. destruct (found_at found b) as [z|] eqn:Ef.
      * destruct EN as (m' & D' & R). rewrite (decides_unique _ _ _ _ _ D' D) in R. destruct R as [(A & _)|(id' & A1 & A2 & A3 & A4)]; [contradiction|]. rewrite (chosen_unique _ _ _ _ C A2). exact A4.
      * destruct EN as (U & _). destruct D as (pre & post & -> & Hb & NU & _). contradiction NU. apply U; [apply in_or_app; right; left; reflexivity|exact Hb].
    + right. exists b, id. split; [exact Hb|]. split; [|split; [exact L|reflexivity]]. destruct (found_at found b) as [z|]; [|reflexivity].
      destruct EN as (m & (pre & post & -> & Hb' & NU & _) & _). contradiction NU. apply U; [apply in_or_app; right; left; reflexivity|exact Hb'].
Qed.

Lemma undecided_dec nodes m : undecided nodes m \/ ~ undecided nodes m.
Proof.
  destruct (names_of m) as [|x l] eqn:E; [right; intros (NE & _); congruence|]. assert (NE : names_of m <> []) by congruence.
  destruct (pick_node nodes (names_of m)) eqn:Ep; [right; intros U; apply (pick_undecided _ _ NE) in U; congruence|left; apply (pick_undecided _ _ NE), Ep].
Qed.
Lemma decides_app nodes user preset b m : decides nodes user b m -> decides nodes (user ++ preset) b m.
Proof. intros (pre & post & -> & H). exists pre, (post ++ preset). split; [rewrite <- app_assoc; reflexivity|exact H]. Qed.
(** A user mapping that is decided wins over any preset. *)
Theorem user_first nodes user preset b m : decides nodes user b m ->
  forall id d, In (mkHB b id d) (fst (humanoid nodes (user ++ preset))) <-> In (mkHB b id d) (fst (humanoid nodes user)).
Proof.
  intros D id d. rewrite !humanoid_exact. pose proof (decides_app nodes user preset b m D) as D2. pose proof D as (pre & post & Eu & Hb & NU & _). split.
  - intros [(m' & D' & R)|(U & _)].
    + left. rewrite (decides_unique _ _ _ _ _ D' D2) in R. exists m. auto.
    + contradiction NU. apply U; [apply in_or_app; left; rewrite Eu; apply in_or_app; right; left; reflexivity|exact Hb].
  - intros [(m' & D' & R)|(U & _)].
    + left. rewrite (decides_unique _ _ _ _ _ D' D) in R. exists m. auto.
    + contradiction NU. apply U; [rewrite Eu; apply in_or_app; right; left; reflexivity|exact Hb].
Qed.
Theorem ignored_never nodes maps b m : decides nodes maps b m -> names_of m = [] -> ~ In b (map hbName (fst (humanoid nodes maps))).
Proof.
  intros D E Hin. apply in_map_iff in Hin as ([b' id d] & Hb & Hh). cbn [hbName] in Hb. subst b'. apply humanoid_exact in Hh as [(m' & D' & NE & _)|(U & _)].
  - rewrite (decides_unique _ _ _ _ _ D' D) in NE. contradiction.
  - destruct D as (pre & post & -> & Hb & NU & _). apply NU, U; [apply in_or_app; right; left; reflexivity|exact Hb].
Qed.
Theorem check_exact bones : NoDup (check_required bones) /\ forall b, In b (check_required bones) <-> In b required_bones /\ ~ In b (map hbName bones).
Proof.
  split; [apply NoDup_filter, required_nodup|]. intros b. unfold check_required. rewrite filter_In. apply and_iff_compat_l. rewrite negb_true_iff. split.
  - intros H Hin. apply in_map_iff in Hin as (h & <- & Hh). assert (existsb (fun h0 => String.eqb (hbName h0) (hbName h)) bones = true) by (apply existsb_exists; exists h; split; [exact Hh|apply String.eqb_refl]). congruence.
  - intros H. destruct (existsb _ bones) eqn:E; [|reflexivity]. apply existsb_exists in E as (h & Hh & Eh). apply String.eqb_eq in Eh as <-. exfalso. apply H, in_map, Hh.
Qed.

(** First person. *)
Theorem first_person nodes maps m : decides nodes maps "head" m ->
  (names_of m = [] -> snd (humanoid nodes maps) = Some (-1)%Z) /\
  forall id, names_of m <> [] -> chosen nodes (names_of m) id -> snd (humanoid nodes maps) = Some (Z.of_nat id).
Proof.
  intros D. unfold humanoid. destruct (map_bones nodes maps [] []) as [found bones] eqn:E. cbn [snd]. destruct (humanoid_entry _ _ _ _ E) as (_ & EN). specialize (EN "head"%string).
  destruct (found_at found "head") as [z|].
  - destruct EN as (m' & D' & R). rewrite (decides_unique _ _ _ _ _ D' D) in R. destruct R as [(A & -> & _)|(id' & A1 & A2 & -> & _)]; (split; [intros B|intros id B C]); try congruence.
    rewrite (chosen_unique _ _ _ _ C A2). reflexivity.
  - exfalso. destruct EN as (U & _). destruct D as (pre & post & -> & Hb & NU & _). apply NU, U; [apply in_or_app; right; left; reflexivity|exact Hb].
Qed.
