(** Proofs about glTF documents in one file (C108). *)
From Coq Require Import String Ascii List ZArith Bool Arith Lia.
From Verif.Model Require Import Num Vec Matrix Mqo MqoDoc Mqo2Gltf Cli Mqo2GltfTextures GltfPack.
From Verif.Spec Require Import CliSpec PackSpec.
From Verif.Proofs Require Import MqoDocProofs CliProofs CliNames GltfDoc.
Import ListNotations.
Local Open Scope string_scope.
Local Open Scope list_scope.

(** ** Paths *)
Lemma split_elements s l : elements s l -> split "/" s = l.
Proof.
  intros (N & F & ->). induction l as [|w ws IH]; [contradiction|]. inversion F as [|? ? Fw Fr]; subst. destruct ws as [|v ws].
  - cbn. apply split_word. exact Fw.
  - change (String.concat "/" (w :: v :: ws)) with (w ++ String "/" (String.concat "/" (v :: ws)))%string. rewrite split_app by exact Fw.
    f_equal. apply IH; [discriminate | exact Fr].
Qed.
Lemma split_nonempty c s : split c s <> [].
Proof. destruct s as [|d s]; cbn; [discriminate|]. destruct (Ascii.eqb d c); [discriminate|]. destruct (split c s); discriminate. Qed.
Lemma elements_split s : elements s (split "/" s).
Proof.
  split; [apply split_nonempty|]. induction s as [|d s [F E]]; [split; [repeat constructor; intros []|reflexivity]|].
  cbn [split]. destruct (Ascii.eqb_spec d "/") as [->|N].
  - split; [constructor; [intros []|exact F]|]. pose proof (split_nonempty "/" s) as Q. destruct (split "/" s) as [|w l]; [contradiction|].
    change (String.concat "/" ("" :: w :: l)) with ("" ++ String "/" (String.concat "/" (w :: l)))%string. now rewrite <- E.
  - pose proof (split_nonempty "/" s) as Q. destruct (split "/" s) as [|w l]; [contradiction|]. inversion F as [|? ? Fw Fl]; subst. split.
    + constructor; [|exact Fl]. apply without_cons. split; [exact N|exact Fw].
    + cbn [String.concat]. destruct l; cbn; f_equal; exact E.
Qed.

Lemma removelast_snoc {A} (l : list A) x : removelast (l ++ [x]) = l.
Proof. now rewrite removelast_app, app_nil_r by discriminate. Qed.
Lemma goes_walk c l d : goes c l d -> walk c l = d.
Proof.
  induction 1 as [c|c e l d H _ IH|l d _ IH|c x l d _ IH|c e l d H1 H2 H3 _ IH]; cbn [walk].
  - reflexivity.
  - destruct H as [-> | ->]; exact IH.
  - exact IH.
  - cbn. rewrite removelast_snoc. exact IH.
  - apply String.eqb_neq in H1, H2, H3. rewrite H1, H2, H3. exact IH.
Qed.
Lemma walk_goes l : forall c, goes c l (walk c l).
Proof.
  induction l as [|e l IH]; intros c; [constructor|]. cbn [walk].
  destruct (String.eqb_spec e "") as [->|N1]; [apply goes_stay; [now left|apply IH]|].
  destruct (String.eqb_spec e ".") as [->|N2]; [apply goes_stay; [now right|apply IH]|].
  destruct (String.eqb_spec e "..") as [->|N3].
  - cbn [orb]. destruct (exists_last (l := c)) as [(c' & x & ->)|] eqn:E || destruct c as [|x c] using rev_ind.
    all: try (rewrite removelast_snoc; apply goes_up; apply IH). apply goes_root. apply IH.
  - apply goes_down; auto.
Qed.
Lemma walk_app a : forall c b, walk c (a ++ b) = walk (walk c a) b.
Proof. induction a as [|e a IH]; intros c b; [reflexivity|]. cbn [app walk]. apply IH. Qed.
Lemma goes_det c l d : goes c l d <-> walk c l = d.
Proof. split; [apply goes_walk|]. intros <-. apply walk_goes. Qed.

(** A path and its cleaned form lead to the same place. *)
Lemma walk_clean l : forall st c, Forall (fun e => e <> "" /\ e <> ".") st ->
  walk c (clean_go false st l) = walk (walk c (rev st)) l.
Proof.
  induction l as [|e l IH]; intros st c F; [reflexivity|]. cbn [clean_go walk].
  destruct (String.eqb_spec e "") as [->|N1]; [apply IH; exact F|]. destruct (String.eqb_spec e ".") as [->|N2]; [apply IH; exact F|]. cbn [orb].
  destruct (String.eqb_spec e "..") as [->|N3].
  - destruct st as [|x st].
    + rewrite IH by (repeat constructor; discriminate). reflexivity.
    + inversion F as [|? ? Fx Fs]; subst. destruct (String.eqb_spec x "..") as [->|Nx].
      * rewrite IH by (constructor; [split; discriminate|exact F]). f_equal. cbn [rev]. rewrite walk_app. reflexivity.
      * rewrite (IH st c Fs). f_equal. cbn [rev]. rewrite walk_app. cbn [walk]. destruct Fx as [A B]. apply String.eqb_neq in A, B, Nx. rewrite A, B, Nx. cbn [orb].
        now rewrite removelast_snoc.
  - rewrite IH by (constructor; [split; assumption|exact F]). f_equal. cbn [rev]. rewrite walk_app. cbn [walk].
    apply String.eqb_neq in N1, N2, N3. now rewrite N1, N2, N3.
Qed.
Lemma opened_here cwd uri : String.prefix "/" uri = false -> opened cwd "." uri = Some (walk cwd (split "/" uri)).
Proof.
  intros A. assert (Au : is_abs uri = false) by exact A. unfold opened, rel. rewrite Au. change (is_abs ".") with false. cbn [Bool.eqb].
  change (clean ".") with (@nil string). assert (S0 : forall t, strip [] t = ([], t)) by (intros []; reflexivity). rewrite S0. cbn [length repeat app option_map].
  unfold clean. rewrite Au. rewrite walk_clean by constructor. reflexivity.
Qed.
Lemma beside_here cwd uri p : beside cwd "." uri p -> p = walk cwd (split "/" uri).
Proof.
  intros (ld & lu & q & Ed & Eu & G1 & G2). apply split_elements in Ed, Eu. subst ld lu. apply goes_walk in G1, G2. cbn in G1. now subst.
Qed.

(** ** Other directories *)
Lemma clean_plain abs l : Forall plain l -> forall st, clean_go abs st l = rev st ++ l.
Proof.
  induction 1 as [|e l (A & B & C) F IH]; intros st; [now rewrite app_nil_r|]. cbn [clean_go]. apply String.eqb_neq in A, B, C. rewrite A, B, C. cbn [orb].
  rewrite IH. cbn [rev]. now rewrite <- app_assoc.
Qed.
Lemma walk_plain l : Forall plain l -> forall c, walk c l = c ++ l.
Proof.
  induction 1 as [|e l (A & B & C) F IH]; intros c; [now rewrite app_nil_r|]. cbn [walk]. apply String.eqb_neq in A, B, C. rewrite A, B, C. cbn [orb].
  rewrite IH. now rewrite <- app_assoc.
Qed.
Lemma strip_length b : forall t b' t', strip b t = (b', t') -> (length b' <= length b /\ length t' <= length t)%nat.
Proof.
  induction b as [|x b IH]; intros t b' t' E; [injection E as <- <-; auto|]. destruct t as [|y t]; [injection E as <- <-; auto|].
  cbn [strip] in E. destruct (String.eqb x y); [apply IH in E; cbn; lia | injection E as <- <-; auto].
Qed.
Lemma strip_suffix b : forall t b' t', strip b t = (b', t') -> exists u v, b = u ++ b' /\ t = v ++ t'.
Proof.
  induction b as [|x b IH]; intros t b' t' E; [injection E as <- <-; exists [], []; auto|]. destruct t as [|y t]; [injection E as <- <-; exists [], []; auto|].
  cbn [strip] in E. destruct (String.eqb x y); [|injection E as <- <-; exists [], []; auto].
  apply IH in E as (u & v & -> & ->). exists (x :: u), (y :: v). auto.
Qed.
Lemma iter_in {A} (f : A -> A) n : forall x, Nat.iter n f (f x) = f (Nat.iter n f x).
Proof. induction n as [|n IH]; intros x; [reflexivity|]. change (f (Nat.iter n f (f x)) = f (f (Nat.iter n f x))). now rewrite IH. Qed.
Lemma walk_up n : forall c l, walk c (repeat ".." n ++ l) = walk (Nat.iter n (@removelast string) c) l.
Proof.
  induction n as [|n IH]; intros c l; [reflexivity|]. change (walk c (repeat ".." (S n) ++ l)) with (walk (removelast c) (repeat ".." n ++ l)).
  rewrite IH, iter_in. reflexivity.
Qed.
Lemma removelast_len {A} (c : list A) : (length (removelast c) <= length c)%nat.
Proof. induction c as [|x [|y c] IH]; cbn in *; lia. Qed.
Lemma up_len n (c : list string) : (length (Nat.iter n (@removelast string) c) <= length c)%nat.
Proof. induction n as [|n IH]; [auto|]. change (Nat.iter (S n) (@removelast string) c) with (removelast (Nat.iter n (@removelast string) c)).
  pose proof (removelast_len (Nat.iter n (@removelast string) c)). lia. Qed.
Lemma plain_rel s l : elements s l -> Forall plain l -> is_abs s = false.
Proof.
  intros E P. pose proof (split_elements _ _ E) as Q. unfold is_abs. destruct s as [|c s]; [reflexivity|]. cbn [String.prefix].
  destruct (ascii_dec "/" c) as [<-|N]; [|reflexivity]. cbn [split] in Q. change (Ascii.eqb "/" "/") with true in Q. cbn in Q. subst l.
  inversion P as [|? ? [A _] _]; subst. now contradiction A.
Qed.
Lemma dots_rel s l : elements s (".." :: l) -> is_abs s = false /\ exists r, clean s = ".." :: r.
Proof.
  intros E. pose proof (split_elements _ _ E) as Q. assert (A : is_abs s = false).
  { unfold is_abs. destruct s as [|c s]; [reflexivity|]. cbn [String.prefix].
    destruct (ascii_dec "/" c) as [<-|N]; [|reflexivity]. cbn [split] in Q. change (Ascii.eqb "/" "/") with true in Q. discriminate. }
  split; [exact A|]. unfold clean. rewrite A, Q. cbn [clean_go]. change ((".." =? "") || (".." =? "."))%string with false. change ((".." =? "..")%string) with true. cbn iota.
  assert (H : forall l st, exists r, clean_go false (st ++ [".."]) l = ".." :: r).
  { clear. induction l as [|e l IH]; intros st; [cbn; rewrite rev_app_distr; cbn; eauto|]. cbn [clean_go].
    destruct ((e =? "") || (e =? "."))%string; [apply IH|]. destruct (String.eqb_spec e "..") as [->|N].
    - destruct st as [|x st]; [cbn; apply (IH [".."])|]. cbn [app]. destruct (String.eqb x ".."); [apply (IH (".." :: x :: st))|apply IH].
    - apply (IH (e :: st)). }
  apply (H l []).
Qed.
Lemma elsewhere cwd dir uri p : away dir -> plain_path uri -> beside cwd dir uri p -> opened cwd dir uri <> Some p.
Proof.
  intros A (lu & Eu & Pu) (ld & lu' & q & Ed & Eu' & G1 & G2) C. pose proof (plain_rel _ _ Eu Pu) as Au.
  apply split_elements in Eu, Eu'. rewrite Eu in Eu'. subst lu'. apply goes_walk in G1, G2. unfold opened, rel in C. rewrite Au in C.
  assert (Cu : clean uri = lu) by (unfold clean; rewrite Eu; apply (clean_plain _ _ Pu [])).
  destruct A as [(r & ->)|[(l & El & Pl)|(l & El)]].
  - assert (Ad : is_abs (String "/" r) = true) by (destruct r; reflexivity). rewrite Ad in C. discriminate C.
  - pose proof (plain_rel _ _ El Pl) as Ad. rewrite Ad in C. cbn [Bool.eqb] in C.
    unfold is_abs in Ad. rewrite Ad in G1. pose proof (split_elements _ _ El) as Q. apply split_elements in Ed. rewrite Q in Ed. subst ld.
    assert (Cd : clean dir = l) by (unfold clean; rewrite Q; apply (clean_plain _ _ Pl [])). rewrite Cd, Cu in C.
    destruct El as (Ne & _ & _). rewrite (walk_plain l Pl) in G1. rewrite (walk_plain lu Pu) in G2.
    destruct (strip l lu) as [b t] eqn:S0. pose proof (strip_length _ _ _ _ S0) as [L1 L2].
    apply strip_suffix in S0 as (u & v & E1 & E2).
    assert (Pt : Forall plain t) by (rewrite E2 in Pu; apply Forall_app in Pu; tauto).
    assert (C' : Some (walk cwd (repeat ".." (length b) ++ t)) = Some p).
    { rewrite <- C. assert (Pb : Forall plain b) by (rewrite E1 in Pl; apply Forall_app in Pl; tauto). clear - Pb.
      destruct b as [|x b]; [reflexivity|]. inversion Pb as [|? ? (A1 & A2 & A3) _]; subst.
      apply String.eqb_neq in A3. now rewrite A3. }
    injection C' as C'. rewrite walk_up, (walk_plain t Pt) in C'. subst q p.
    apply (f_equal (@length string)) in C'. rewrite !app_length in C'. pose proof (up_len (length b) cwd). destruct l; [contradiction|]. cbn [length] in *. lia.
  - destruct (dots_rel _ _ El) as (Ad & r & Cd). rewrite Ad, Cd, Cu in C. cbn [Bool.eqb] in C.
    destruct lu as [|x lu]; [discriminate C|]. inversion Pu as [|? ? (A1 & A2 & A3) _]; subst. cbn [strip] in C.
    destruct (String.eqb_spec ".." x) as [<-|_]; [now contradiction A3|]. discriminate C.
Qed.

(** ** Types of pictures *)
Lemma lower_app a b : lower (a ++ b) = (lower a ++ lower b)%string.
Proof. induction a as [|c a IH]; [reflexivity|]. cbn. now rewrite IH. Qed.
Lemma capital_lower c d : capital_of c d -> lower_ascii d = lower_ascii c.
Proof.
  intros (i & A & B). do 26 (destruct i as [|i]; [injection A as <-; injection B as <-; reflexivity|]). discriminate A.
Qed.
Lemma written_lower w e : written w e -> lower w = lower e.
Proof. induction 1 as [|c w e _ IH|c d w e C _ IH]; [reflexivity| |]; cbn; rewrite IH; [reflexivity|]. now rewrite (capital_lower _ _ C). Qed.
Lemma suffix_same a e suf : String.length e = String.length suf -> has_suffix suf (a ++ e) = String.eqb e suf.
Proof.
  intros L. unfold has_suffix. cbv zeta. rewrite append_length. rewrite <- L. replace (String.length a + String.length e - String.length e)%nat with (String.length a) by lia.
  rewrite substring_tail. replace (String.length e <=? String.length a + String.length e)%nat with true by (symmetry; apply Nat.leb_le; lia). reflexivity.
Qed.
Lemma mime_typed img : kiMime img = "" -> forall a e, kiUri img = (a ++ e)%string ->
  (written e ".png" -> mime_of img = "image/png") /\ (written e ".jpg" \/ written e ".jpeg" -> mime_of img = "image/jpeg").
Proof.
  intros M a e E. unfold mime_of. rewrite M. change (("" =? "")%string) with true. cbn iota. rewrite E, lower_app. split.
  - intros W. rewrite (written_lower _ _ W). rewrite suffix_same by reflexivity. reflexivity.
  - intros [W|W]; rewrite (written_lower _ _ W).
    + rewrite suffix_same by reflexivity. reflexivity.
    + change (lower ".jpeg") with ("." ++ "jpeg")%string. assert (Q : forall x y z, (x ++ (y ++ z) = (x ++ y) ++ z)%string) by (induction x; intros; cbn; congruence).
      rewrite Q, suffix_same by reflexivity. reflexivity.
Qed.

(** ** Packing *)
(** Views keep their bytes. *)
Definition extends (d d' : kdoc) : Prop :=
  (forall v data, bytes_of d v data -> bytes_of d' v data) /\ (length (kdViews d) <= length (kdViews d'))%nat /\
  (length (kdBufs d) <= length (kdBufs d') <= Nat.max 1 (length (kdBufs d)))%nat.
Lemma extends_refl d : extends d d.
Proof. repeat split; auto. lia. Qed.
Lemma extends_trans a b c : extends a b -> extends b c -> extends a c.
Proof. intros (A1 & A2 & A4) (B1 & B2 & B4). repeat split; [auto|lia|lia|lia]. Qed.
Lemma write_ok pad d data d' v : write_view pad d data = (d', v) -> extends d d' /\ bytes_of d' v data /\
  (Forall (fun b => kbUri b = "") (kdBufs d) -> Forall (fun b => kbUri b = "") (kdBufs d')).
Proof.
  unfold write_view. intros E.
  assert (B : exists l b, match kdBufs d with [] => [mkKB "" []] | l => l end = l ++ [b] /\ (kdBufs d = l ++ [b] \/ kdBufs d = [] /\ l = [] /\ b = mkKB "" [])).
  { destruct (kdBufs d) as [|x m] eqn:K; [exists [], (mkKB "" []); auto|]. destruct (@exists_last _ (x :: m)) as (l & b & Q); [discriminate|]. rewrite Q. exists l, b. auto. }
  destruct B as (l & b & Q & K). rewrite Q in E. rewrite removelast_snoc, last_last, app_length in E. cbn [length] in E. replace (length l + 1 - 1)%nat with (length l) in E by lia.
  injection E as <- <-. split; [|split].
  - split; [|split]; cbn [kdViews kdBufs].
    + intros v dat (w & b0 & bf & af & A1 & A2 & A3 & A4 & A5). destruct K as [K|(K & _)]; [|rewrite K in A2; destruct (kvBuf w); discriminate].
      rewrite K in A2. assert (V : forall x, nth_error (kdViews d ++ [x]) v = Some w) by (intros x; rewrite nth_error_app1; [exact A1|apply nth_error_Some; congruence]).
      destruct (lt_dec (kvBuf w) (length l)) as [L|L].
      * exists w, b0, bf, af. cbn [kdViews kdBufs]. rewrite nth_error_app1 in A2 by exact L. split; [apply V|]. split; [rewrite nth_error_app1 by exact L; exact A2|auto].
      * rewrite nth_error_app2 in A2 by lia. destruct (kvBuf w - length l)%nat as [|k] eqn:D; [|destruct k; discriminate]. injection A2 as <-.
        eexists w, _, bf, (af ++ repeat 0%Z (pad (length (kbData b))) ++ data). cbn [kdViews kdBufs]. split; [apply V|].
        split; [rewrite nth_error_app2 by lia; rewrite D; reflexivity|]. cbn [kbData]. rewrite A3 at 1. rewrite <- !app_assoc. auto.
    + rewrite app_length. lia.
    + rewrite app_length. cbn [length]. destruct K as [K|(K & -> & _)]; rewrite K; [rewrite app_length; cbn [length]; lia|cbn; lia].
  - eexists (mkKV (length l) _ (length data)), _, (kbData b ++ repeat 0%Z (pad (length (kbData b)))), []. cbn [kdViews kdBufs].
    split; [rewrite nth_error_app2, Nat.sub_diag by lia; reflexivity|].
    split; [cbn [kvBuf]; rewrite nth_error_app2, Nat.sub_diag by lia; reflexivity|]. cbn [kbData kvOff kvLen]. rewrite app_nil_r, app_length, repeat_length, <- app_assoc. auto.
  - intros F. cbn [kdBufs]. destruct K as [K|(K & -> & ->)]; [|repeat constructor]. rewrite K in F. apply Forall_app in F as [F1 F2]. apply Forall_app. split; [exact F1|].
    inversion F2; subst. repeat constructor; assumption.
Qed.

Section Pack.
Variables (file : list string -> option (list Z)) (cwd : list string) (pad : nat -> nat) (dir : string).
Notation contents uri := (match opened cwd dir uri with Some p => file p | None => None end).
Lemma pack_image_ok d img d' img' : pack_image file cwd pad dir d img = (d', img') ->
  extends d d' /\ packed (contents (kiUri img)) d' img img' /\ (Forall (fun b => kbUri b = "") (kdBufs d) -> Forall (fun b => kbUri b = "") (kdBufs d')).
Proof.
  unfold pack_image. destruct (kiView img) as [v|] eqn:V.
  { intros E. injection E as <- <-. split; [apply extends_refl|]. split; [apply packed_before with v; exact V|auto]. }
  destruct (String.eqb_spec (kiUri img) "") as [U|U].
  { intros E. injection E as <- <-. split; [apply extends_refl|]. split; [apply packed_none; auto|auto]. }
  destruct (contents (kiUri img)) as [data|] eqn:C.
  - destruct (write_view pad d data) as [d1 v] eqn:W. intros E. injection E as <- <-. destruct (write_ok _ _ _ _ _ W) as (A & B & D). split; [exact A|]. split; [|exact D].
    apply packed_now with data v; auto; cbn.
    + intros M. unfold mime_of. apply String.eqb_neq in M. rewrite M. reflexivity.
    + apply mime_typed.
  - intros E. injection E as <- <-. split; [apply extends_refl|]. split; [apply packed_none; auto|auto].
Qed.
Lemma packed_bytes f d d' i i' : (forall v data, bytes_of d v data -> bytes_of d' v data) -> packed f d i i' -> packed f d' i i'.
Proof. intros X [img v H|img H1 H2|img img' data v H1 H2 H3 H4 H5 H6 H7 H8]; [econstructor; eassumption|apply packed_none; assumption|eapply packed_now; eauto]. Qed.
Lemma pack_images_ok l : forall d d' l', pack_images file cwd pad dir d l = (d', l') ->
  extends d d' /\ Forall2 (fun i i' => packed (contents (kiUri i)) d' i i') l l' /\ (Forall (fun b => kbUri b = "") (kdBufs d) -> Forall (fun b => kbUri b = "") (kdBufs d')).
Proof.
  induction l as [|i l IH]; intros d d' l' E; cbn [pack_images] in E.
  { injection E as <- <-. split; [apply extends_refl|]. split; [constructor|auto]. }
  destruct (pack_image file cwd pad dir d i) as [d1 i'] eqn:E1. destruct (pack_images file cwd pad dir d1 l) as [d2 l2] eqn:E2. injection E as <- <-.
  destruct (pack_image_ok _ _ _ _ E1) as (A1 & A2 & A3). destruct (IH _ _ _ E2) as (B1 & B2 & B3).
  split; [eapply extends_trans; eassumption|]. split; [|auto]. constructor; [eapply packed_bytes; [apply B1|exact A2]|exact B2].
Qed.
Lemma single_ok d : let d' := to_single_file file cwd pad dir d in
  (forall v data, bytes_of d v data -> bytes_of d' v data) /\ Forall2 (fun i i' => packed (contents (kiUri i)) d' i i') (kdImages d) (kdImages d') /\
  Forall (fun b => kbUri b = "") (kdBufs d') /\ (length (kdBufs d) <= length (kdBufs d') <= Nat.max 1 (length (kdBufs d)))%nat.
Proof.
  unfold to_single_file. set (d1 := mkKD (map (fun b => mkKB "" (kbData b)) (kdBufs d)) (kdViews d) (kdImages d)).
  destruct (pack_images file cwd pad dir d1 (kdImages d)) as [d2 l] eqn:E. cbv zeta. cbn [kdImages kdBufs]. destruct (pack_images_ok _ _ _ _ E) as ((A1 & A2 & A4) & B & C).
  assert (X : forall v data, bytes_of d2 v data -> bytes_of (mkKD (kdBufs d2) (kdViews d2) l) v data) by (intros v data H; exact H).
  split; [|split; [|split]].
  - intros v data (w & b & bf & af & H1 & H2 & H3 & H4 & H5). apply X. apply A1. exists w, (mkKB "" (kbData b)), bf, af. cbn. rewrite nth_error_map, H2. auto.
  - clear - B X. generalize dependent (mkKD (kdBufs d2) (kdViews d2) l). intros d3 X. induction B as [|i i' a b P B IH]; constructor; [|exact IH]. eapply packed_bytes; eassumption.
  - apply C. cbn. apply Forall_map. apply Forall_forall. reflexivity.
  - rewrite <- (map_length (fun b => mkKB "" (kbData b)) (kdBufs d)). exact A4.
Qed.
End Pack.

(** ** Names of buffers *)
Lemma append_inj_r a b c : (a ++ c = b ++ c)%string -> a = b.
Proof.
  intros E. assert (L : String.length a = String.length b) by (apply (f_equal String.length) in E; rewrite !append_length in E; lia).
  revert b E L. induction a as [|x a IH]; intros [|y b] E L; try discriminate L; [reflexivity|]. cbn in *. injection E as -> E. f_equal. apply IH; [exact E|lia].
Qed.
Lemma bin_name_inj output i j : bin_name output i = bin_name output j -> i = j.
Proof. unfold bin_name. intros E. apply append_inj_l in E. apply append_inj_r in E. apply dec_inj. exact E. Qed.
Lemma bin_name_nonempty output i : bin_name output i <> "".
Proof. intros E. apply (f_equal String.length) in E. unfold bin_name in E. rewrite !append_length in E. cbn in E. lia. Qed.
Lemma name_nth output l : forall k i, nth_error (name_buffers_from output k l) i =
  option_map (fun b => if String.eqb (kbUri b) "" then mkKB (bin_name output (k + i)) (kbData b) else b) (nth_error l i).
Proof.
  induction l as [|b l IH]; intros k [|i]; try reflexivity; cbn [name_buffers_from nth_error option_map].
  - now rewrite Nat.add_0_r.
  - rewrite IH. now rewrite <- Nat.add_succ_comm.
Qed.

(** ** Results *)
Lemma here_ok file cwd pad d : let d' := to_single_file file cwd pad "." d in
  Forall2 (fun i i' => forall p, String.prefix "/" (kiUri i) = false -> beside cwd "." (kiUri i) p -> packed (file p) d' i i') (kdImages d) (kdImages d').
Proof.
  cbv zeta. destruct (single_ok file cwd pad "." d) as (_ & F & _). revert F. generalize (kdImages (to_single_file file cwd pad "." d)). induction 1 as [|i i' l l' P F IH]; constructor; [|exact IH].
  intros p A B. apply beside_here in B. subst p. rewrite (opened_here cwd _ A) in P. exact P.
Qed.
Lemma kept_ok file cwd pad dir d : let d' := to_single_file file cwd pad dir d in
  (forall v data, bytes_of d v data -> bytes_of d' v data) /\
  Forall2 (fun i i' => kiView i <> None -> i' = i) (kdImages d) (kdImages d') /\ Forall (fun b => kbUri b = "") (kdBufs d').
Proof.
  cbv zeta. destruct (single_ok file cwd pad dir d) as (A & F & B & _). split; [exact A|]. split; [|exact B].
  revert F. generalize (kdImages (to_single_file file cwd pad dir d)). induction 1 as [|i i' l l' P F IH]; constructor; [|exact IH].
  destruct P as [img v H|img H1 H2|img img' data v H1 H2 H3 H4 H5 H6 H7 H8]; intros V; [reflexivity|reflexivity|contradiction].
Qed.
Lemma self_ok file cwd pad d : (length (kdBufs d) <= 1)%nat ->
  Forall (fun i => kiUri i = "" \/ (exists r, kiUri i = ("data:" ++ r)%string) \/
    kiView i = None /\ String.prefix "/" (kiUri i) = false /\ exists p data, beside cwd "." (kiUri i) p /\ file p = Some data) (kdImages d) ->
  self_contained (to_single_file file cwd pad "." d).
Proof.
  intros L F. destruct (single_ok file cwd pad "." d) as (_ & G & B & N). unfold self_contained. split; [lia|]. split; [exact B|].
  assert (K : forall f d i i', packed f d i i' -> kiUri i = "" \/ (exists r, kiUri i = ("data:" ++ r)%string) \/ (kiView i = None /\ f <> None) ->
    kiUri i' = "" \/ exists r, kiUri i' = ("data:" ++ r)%string).
  { clear. intros f d i i' [img v V|img H1 H2|img img' data v H1 H2 H3 H4 H5 H6 H7 H8] [H|[H|(H & Hf)]]; auto; [congruence|]. destruct H2; [now left|contradiction]. }
  revert F G. generalize (kdImages (to_single_file file cwd pad "." d)), (kdImages d). intros l' l F G. induction G as [|i i' l l' P G IH]; constructor.
  - inversion F as [|? ? H _]; subst. apply (K _ _ _ _ P). destruct H as [H|[H|(V & A & p & data & Q & E)]]; [now left|right; now left|right; right].
    split; [exact V|]. apply beside_here in Q. subst p. rewrite (opened_here cwd _ A), E. discriminate.
  - apply IH. inversion F; assumption.
Qed.
Lemma two_buffers file cwd pad dir d : (2 <= length (kdBufs d))%nat -> ~ self_contained (to_single_file file cwd pad dir d).
Proof. intros L (H & _). destruct (single_ok file cwd pad dir d) as (_ & _ & _ & N). lia. Qed.

Lemma names_ok output l : let l' := name_buffers output l in
  map kbData l' = map kbData l /\ Forall2 (fun b b' => kbUri b' <> "" /\ (kbUri b <> "" -> b' = b)) l l' /\
  forall i j b c b' c', nth_error l i = Some b -> nth_error l j = Some c -> nth_error l' i = Some b' -> nth_error l' j = Some c' ->
    kbUri b = "" -> kbUri c = "" -> kbUri b' = kbUri c' -> i = j.
Proof.
  cbv zeta. unfold name_buffers. split; [|split].
  - generalize 0%nat. induction l as [|b l IH]; intros k; [reflexivity|]. cbn. rewrite IH. f_equal. destruct (String.eqb (kbUri b) ""); reflexivity.
  - generalize 0%nat. induction l as [|b l IH]; intros k; [constructor|]. cbn. constructor; [|apply IH].
    destruct (String.eqb_spec (kbUri b) "") as [E|E]; cbn; [|auto]. split; [apply bin_name_nonempty|contradiction].
  - intros i j b c b' c' A B C D E F G. rewrite name_nth in C, D. rewrite A in C. rewrite B in D. cbn in C, D. rewrite E in C. rewrite F in D. cbn in C, D.
    injection C as <-. injection D as <-. cbn in G. apply bin_name_inj in G. exact G.
Qed.

Lemma del_in n e x : In x (del n e) <-> In x e /\ x <> n.
Proof. unfold del. rewrite filter_In, negb_true_iff, String.eqb_neq. tauto. Qed.
Lemma in_del_map n l x : (exists e, In x e /\ In e (map (del n) l)) <-> (exists e, In x e /\ In e l) /\ x <> n.
Proof.
  split.
  - intros (e & A & B). apply in_map_iff in B as (e0 & <- & B). apply del_in in A as [A N]. split; [exists e0; auto|exact N].
  - intros ((e & A & B) & N). exists (del n e). split; [apply del_in; auto|apply in_map; exact B].
Qed.
Lemma removed_ok n k : (forall e, In e (keMeshes k ++ kePrimitives k ++ keTextures k ++ keImages k ++ keBuffers k ++ keViews k) -> ~ In n e) ->
  forall x, has_extension (remove_extension n k) x <-> has_extension k x /\ x <> n.
Proof.
  intros H x. unfold has_extension. cbn [remove_extension keDoc keAccessors keAnimations keMaterials keNodes keSkins keCameras keSamplers keScenes keMeshes kePrimitives keTextures keImages keBuffers keViews].
  set (r := keMeshes k ++ kePrimitives k ++ keTextures k ++ keImages k ++ keBuffers k ++ keViews k) in *.
  assert (E : forall a b c d e f g h (r : list exts), a ++ b ++ c ++ d ++ e ++ f ++ g ++ h ++ r = (a ++ b ++ c ++ d ++ e ++ f ++ g ++ h) ++ r) by (intros; rewrite <- !app_assoc; reflexivity).
  rewrite !E. rewrite <- !map_app.
  set (m := keAccessors k ++ keAnimations k ++ keMaterials k ++ keNodes k ++ keSkins k ++ keCameras k ++ keSamplers k ++ keScenes k).
  rewrite del_in. pose proof (in_del_map n m x) as Q. split.
  - intros [[A N]|(e & A & B)]; [auto|]. apply in_app_iff in B as [B|B].
    + destruct Q as [Q _]. destruct (Q (ex_intro _ e (conj A B))) as [(e0 & A0 & B0) N]. split; [right; exists e0; split; [exact A0|apply in_app_iff; auto]|exact N].
    + split; [right; exists e; split; [exact A|apply in_app_iff; auto]|]. intros ->. exact (H e B A).
  - intros [[A|(e & A & B)] N]; [auto|]. right. apply in_app_iff in B as [B|B].
    + destruct Q as [_ Q]. destruct (Q (conj (ex_intro _ e (conj A B)) N)) as (e0 & A0 & B0). exists e0. split; [exact A0|apply in_app_iff; auto].
    + exists e. split; [exact A|apply in_app_iff; auto].
Qed.
