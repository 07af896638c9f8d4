(** Proofs about the files of .gltf documents. *)
From Coq Require Import String Ascii List ZArith Bool Lia.
From Verif.Model Require Import Cli GltfPack GltfSave.
From Verif.Spec Require Import CliSpec GltfSaveSpec.
Import ListNotations.
Local Open Scope string_scope.
Local Open Scope list_scope.

Lemma path_eqb_spec : forall a b, path_eqb a b = true <-> a = b.
Proof.
  induction a as [|x a IH]; intros [|y b]; cbn [path_eqb]; split; intros H; try discriminate; try reflexivity.
  - apply andb_true_iff in H as [E H]. apply String.eqb_eq in E. apply IH in H. congruence.
  - injection H as -> ->. rewrite String.eqb_refl. cbn [andb]. apply IH. reflexivity.
Qed.
Lemma found_same d p f : found ((p, f) :: d) p = Some f.
Proof. cbn [found]. rewrite (proj2 (path_eqb_spec p p) eq_refl). reflexivity. Qed.
Lemma found_other d p q f : q <> p -> found ((q, f) :: d) p = found d p.
Proof. intros N. cbn [found]. destruct (path_eqb q p) eqn:E; [apply path_eqb_spec in E; contradiction|reflexivity]. Qed.
Lemma split_one s : without "/" s -> split "/" s = [s].
Proof.
  induction s as [|c s IH]; [reflexivity|]. unfold without in *. cbn [list_ascii_of_string split]. intros W. destruct (Ascii.eqb_spec c "/") as [E|_]; [exfalso; apply W; left; exact E|]. rewrite IH by (intros X; apply W; right; exact X). reflexivity.
Qed.
Lemma prefix_data s : embedded s = true -> exists r, s = ("data:" ++ r)%string.
Proof.
  unfold embedded. generalize "data:" as p. intros p. revert s. induction p as [|c p IH]; intros s H; [exists s; reflexivity|].
  destruct s as [|x s]; [discriminate|]. cbn [String.prefix] in H. destruct (ascii_dec c x) as [<-|]; [|discriminate]. destruct (IH s H) as (r & ->). exists r. reflexivity.
Qed.

Lemma written_frame dir : forall l d p, ~ In p (map (fun b => place dir (kbUri b)) l) -> found (write_buffers d dir l) p = found d p.
Proof.
  induction l as [|b l IH]; intros d p H; cbn [write_buffers]; [reflexivity|]. rewrite IH by (intros X; apply H; right; exact X).
  destruct (_ || _); [reflexivity|]. apply found_other. intros E. apply H. left. exact E.
Qed.
Lemma place_inj dir u v : without "/" u -> without "/" v -> place dir u = place dir v -> u = v.
Proof. unfold place. intros U V E. rewrite (split_one u U), (split_one v V) in E. apply app_inv_head in E. congruence. Qed.
Lemma written_found dir name : forall l d, separate name l -> forall b, In b l -> found (write_buffers d dir l) (place dir (kbUri b)) = Some (DData (kbData b)).
Proof.
  induction l as [|a l IH]; intros d [N F] b Hb; [destruct Hb|]. cbn [map] in N. inversion N as [|? ? Na N']; subst. inversion F as [|? ? Fa F']; subst. cbn [write_buffers]. destruct Hb as [<-|Hb].
  - destruct Fa as (Wa & _ & Da & Ea). rewrite written_frame.
    + replace (embedded (kbUri a)) with false by (symmetry; apply not_true_is_false; intros E; apply prefix_data in E as (r & E); exact (Da r E)).
      destruct (kbData a) as [|z l0] eqn:Ed; [congruence|]. cbn [orb]. apply found_same.
    + rewrite in_map_iff. intros (x & E & X). rewrite Forall_forall in F'. destruct (F' x X) as (Wx & _). apply place_inj in E; [|assumption|assumption]. apply Na. rewrite <- E. apply in_map. exact X.
  - apply IH; [split; assumption|exact Hb].
Qed.

Section Load.
Variable decode : string -> option (list Z).

Theorem save_frame d dir name doc : only_changed d (save_gltf d dir name doc) ((dir ++ [name]) :: map (fun b => place dir (kbUri b)) (name_buffers name (kdBufs doc))).
Proof.
  intros p H. unfold save_gltf. rewrite written_frame by (intros X; apply H; right; exact X). apply found_other. intros E. apply H. left. exact E.
Qed.

Lemma opened_all d dir : forall l, (forall b, In b l -> embedded (kbUri b) = false /\ found d (place dir (kbUri b)) = Some (DData (kbData b))) -> open_buffers decode d dir (map kbUri l) = Some l.
Proof.
  induction l as [|b l IH]; intros H; cbn [open_buffers map]; [reflexivity|]. unfold open_buffer. destruct (H b (or_introl eq_refl)) as [-> ->]. rewrite IH by (intros x X; apply H; right; exact X).
  destruct b. reflexivity.
Qed.
Theorem save_open d dir name doc : without "/" name -> separate name (name_buffers name (kdBufs doc)) ->
  open_gltf decode (save_gltf d dir name doc) dir name = Some (mkKD (name_buffers name (kdBufs doc)) (kdViews doc) (kdImages doc)).
Proof.
  intros W Sp. pose proof Sp as [N F]. rewrite Forall_forall in F. unfold open_gltf, save_gltf. rewrite written_frame.
  - rewrite found_same. rewrite opened_all; [reflexivity|]. intros b Hb. destruct (F b Hb) as (Wb & Nb & Db & _). split.
    + apply not_true_is_false. intros E. apply prefix_data in E as (r & E). exact (Db r E).
    + eapply written_found; eassumption.
  - rewrite in_map_iff. intros (b & E & Hb). destruct (F b Hb) as (Wb & Nb & _). unfold place in E. rewrite (split_one _ Wb) in E. apply app_inv_head in E. congruence.
Qed.

Lemma open_same d d' dir name : (forall p, (exists q, p = dir ++ q) -> found d' p = found d p) -> open_gltf decode d' dir name = open_gltf decode d dir name.
Proof.
  intros H. unfold open_gltf. rewrite H by eauto. destruct (found d (dir ++ [name])) as [[l|uris views images]|]; [reflexivity| |reflexivity].
  induction uris as [|u r IH]; [reflexivity|]. cbn [open_buffers]. assert (E : open_buffer decode d' dir u = open_buffer decode d dir u) by (unfold open_buffer; rewrite H by (unfold place; eauto); reflexivity). rewrite E. destruct (open_buffer decode d dir u); [|reflexivity]. destruct (open_buffers decode d' dir r), (open_buffers decode d dir r); cbn [option_map] in IH; congruence.
Qed.
(** Directories none of which is below the other. *)
Theorem source_kept d change indir inname outdir outname d' doc :
  (forall p q, indir ++ p <> outdir ++ q) -> open_gltf decode d indir inname = Some doc -> convert_gltf decode d change indir inname outdir outname = Some d' ->
  open_gltf decode d' indir inname = Some doc.
Proof.
  intros Ap O C. unfold convert_gltf in C. rewrite O in C. injection C as <-. rewrite <- O. apply open_same. intros p (q & ->). apply save_frame.
  intros [E|X]; [symmetry in E; exact (Ap _ _ E)|]. apply in_map_iff in X as (b & E & _). unfold place in E. symmetry in E. exact (Ap _ _ E).
Qed.

Lemma named_data name : forall l i, map kbData (name_buffers_from name i l) = map kbData l.
Proof. induction l as [|b l IH]; intros i; cbn [name_buffers_from map]; [reflexivity|]. rewrite IH. destruct (String.eqb _ _); reflexivity. Qed.
Theorem save_opens d dir name doc : without "/" name -> separate name (name_buffers name (kdBufs doc)) ->
  exists doc', open_gltf decode (save_gltf d dir name doc) dir name = Some doc' /\
    map kbData (kdBufs doc') = map kbData (kdBufs doc) /\ kdViews doc' = kdViews doc /\ kdImages doc' = kdImages doc.
Proof. intros W Sp. eexists. split; [apply save_open; assumption|]. split; [apply named_data|]. split; reflexivity. Qed.

Definition written_out (b : kbuf) : Prop := exists r, kbUri b = ("data:" ++ r)%string.
Lemma embedded_uri b : written_out b -> embedded (kbUri b) = true /\ String.eqb (kbUri b) "" = false.
Proof. intros (r & ->). split; [|reflexivity]. unfold embedded. destruct r; reflexivity. Qed.
Lemma named_embedded name change : forall l i, Forall written_out l ->
  name_buffers_from name i (map (fun b => mkKB (kbUri b) (change (kbData b))) l) = map (fun b => mkKB (kbUri b) (change (kbData b))) l.
Proof.
  induction l as [|b l IH]; intros i F; [reflexivity|]. inversion F as [|? ? Fb F']; subst. cbn [map name_buffers_from kbUri]. rewrite (proj2 (embedded_uri b Fb)), IH by exact F'. reflexivity.
Qed.
Lemma written_embedded dir : forall l d, Forall written_out l -> write_buffers d dir l = d.
Proof. induction l as [|b l IH]; intros d F; [reflexivity|]. inversion F as [|? ? Fb F']; subst. cbn [write_buffers]. rewrite (proj1 (embedded_uri b Fb)). cbn [orb]. apply IH. exact F'. Qed.
Lemma embedded_reopened d d' dir dir' : forall uris bs, open_buffers decode d dir uris = Some bs -> Forall written_out bs -> map kbUri bs = uris /\ open_buffers decode d' dir' uris = Some bs.
Proof.
  induction uris as [|u r IH]; intros bs H F; cbn [open_buffers] in *; [injection H as <-; split; reflexivity|].
  destruct (open_buffer decode d dir u) as [b|] eqn:Eb; [|discriminate]. destruct (open_buffers decode d dir r) as [l|]; [|discriminate]. injection H as <-. inversion F as [|? ? Fb F']; subst.
  destruct (IH l eq_refl F') as [U ->]. assert (kbUri b = u /\ open_buffer decode d' dir' u = Some b) as [Ub ->]; [|split; [cbn [map]; congruence|reflexivity]].
  unfold open_buffer in *. destruct (embedded u) eqn:Eu.
  - split; [|exact Eb]. destruct (decode u); [|discriminate]. injection Eb as <-. reflexivity.
  - exfalso. destruct (found d (place dir u)) as [[x|]|]; try discriminate. injection Eb as <-. pose proof (proj1 (embedded_uri _ Fb)) as X. cbn [kbUri] in X. congruence.
Qed.
Theorem embedded_old d change indir inname outdir outname d' doc :
  open_gltf decode d indir inname = Some doc -> Forall (fun b => exists r, kbUri b = ("data:" ++ r)%string) (kdBufs doc) ->
  convert_gltf decode d change indir inname outdir outname = Some d' -> open_gltf decode d' outdir outname = Some doc.
Proof.
  intros O F C. unfold convert_gltf in C. rewrite O in C. injection C as <-. unfold save_gltf, open_gltf in *. cbn [kdBufs kdViews kdImages] in *. unfold name_buffers. rewrite named_embedded by exact F.
  rewrite written_embedded by (rewrite Forall_map; exact F). rewrite found_same. rewrite map_map. cbn [kbUri].
  destruct (found d (indir ++ [inname])) as [[l|uris views images]|]; try discriminate. destruct (open_buffers decode d indir uris) as [bs|] eqn:E; [|discriminate]. injection O as <-. cbn [kdBufs kdViews kdImages] in *.
  match goal with |- option_map _ (open_buffers decode ?D outdir _) = _ => destruct (embedded_reopened _ D _ outdir _ _ E F) as [U R] end. rewrite <- U in R.
  transitivity (option_map (fun l => mkKD l views images) (Some bs)); [apply f_equal; exact R|reflexivity].
Qed.
End Load.
Theorem save_skips d dir name doc p : p <> dir ++ [name] ->
  (forall b, In b (name_buffers name (kdBufs doc)) -> place dir (kbUri b) = p -> kbData b = [] \/ exists r, kbUri b = ("data:" ++ r)%string) -> found (save_gltf d dir name doc) p = found d p.
Proof.
  intros Np H. unfold save_gltf. cbv zeta. set (bufs := name_buffers name (kdBufs doc)) in *. clearbody bufs.
  assert (G : forall d0, found (write_buffers d0 dir bufs) p = found d0 p).
  { induction bufs as [|b r IH]; intros d0; [reflexivity|]. cbn [write_buffers]. rewrite IH by (intros b' I; apply H; right; exact I). specialize (H b (or_introl eq_refl)).
    destruct (embedded (kbUri b)) eqn:E1; [reflexivity|]. destruct (kbData b) as [|x l] eqn:E2; [reflexivity|]. cbn [orb]. apply found_other.
    intros E. destruct (H E) as [C|(r0 & C)]; [discriminate|]. unfold embedded in E1. rewrite C in E1. destruct r0; discriminate. }
  rewrite G. apply found_other. congruence.
Qed.
