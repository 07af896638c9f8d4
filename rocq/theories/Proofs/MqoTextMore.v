(** Consequences of the text round trip, and what happens outside its domain. *)
From Coq Require Import String Ascii List ZArith NArith Bool Permutation Lia.
From Verif.Model Require Import Num Vec Matrix Mqo MqoDoc MqoText MqoLex.
From Verif.Spec Require Import TextSpec.
From Verif.Proofs Require Import MqoTextProofs MqoLexProofs.
Import ListNotations.
Local Open Scope string_scope.
Local Open Scope list_scope.

(** Integers as numbers, for examples. *)
#[global] Program Instance TextZ : TextNum Z := {|
  fmt_num := fun _ z => ((z <? 0)%Z, true, decN (Z.to_N (Z.abs z)));
  parse_num := atoi; facet0 := 59%Z |}.
Next Obligation. apply lex_decN. Qed.
Lemma reread_Z f z : reread f z = z.
Proof.
  unfold reread; cbn. rewrite atoi_decN, Z2N.id by lia. destruct (Z.ltb_spec z 0); cbn; lia.
Qed.

(** ** Vertex ids *)
Lemma assoc_in (m : list (Z * Z)) k v : NoDup (map fst m) -> In (k, v) m <-> assoc m k = Some v.
Proof.
  induction m as [|[a b] m IH]; cbn [map fst assoc In]; intros Hn; [split; [intros []|discriminate]|].
  inversion Hn as [|? ? Ha Hm]; subst. specialize (IH Hm). destruct (Z.eqb_spec a k) as [->|Hak].
  - split.
    + intros [[= ->]|Hin]; [reflexivity|]. destruct Ha. apply (in_map fst) in Hin. exact Hin.
    + intros [= ->]. now left.
  - rewrite <- IH. split; [intros [[= ? ?]|H]; [congruence|exact H]|now right].
Qed.
Lemma uid_of_in m k i : NoDup (map snd m) -> In (k, i) m -> uid_of m i = Some k.
Proof.
  induction m as [|[a b] m IH]; [intros _ []|]. cbn [map snd uid_of In]. intros Hn Hin.
  inversion Hn as [|? ? Hb Hm]; subst. destruct Hin as [[= -> ->]|Hin].
  - destruct (uid_of m i) eqn:E; [|now rewrite Z.eqb_refl]. exfalso. apply Hb.
    clear - E. induction m as [|[c e] m IH]; [discriminate|]. cbn [uid_of] in E. destruct (uid_of m i).
    + right. now apply IH.
    + destruct (Z.eqb_spec e i); [now left|discriminate].
  - now rewrite (IH Hm Hin).
Qed.
(** A registry that gives every vertex its own positive id. *)
Lemma ids_kept (m : list (Z * Z)) n k : NoDup (map fst m) -> Permutation (map snd m) (zseq n) ->
  Forall (fun p => (0 < fst p)%Z) m -> assoc (kept_ids m n) k = assoc m k.
Proof.
  intros Hn Hp Hpos.
  assert (Hs : NoDup (map snd m)).
  { eapply Permutation_NoDup; [apply Permutation_sym, Hp|]. unfold zseq.
    apply FinFun.Injective_map_NoDup; [intros a b; lia|apply seq_NoDup]. }
  assert (Hin : forall u i, In (u, i) (kept_ids m n) <-> In (u, i) m).
  { intros u i. rewrite kept_ids_eq. destruct m as [|p0 m0] eqn:Em; [reflexivity|]. rewrite <- Em in *.
    rewrite <- in_rev, in_map_iff. split.
    - intros (j & [= <- <-] & Hj). assert (Hj' : In j (map snd m)) by (now rewrite Hp).
      apply in_map_iff in Hj' as ([u' j'] & Ej & Hu). cbn in Ej. subst j'. unfold w_uid. rewrite (uid_of_in m u' j Hs Hu).
      pose proof (proj1 (Forall_forall _ _) Hpos _ Hu). cbn in *. destruct (Z.eqb_spec u' 0); [lia|exact Hu].
    - intros Hu. exists i. unfold w_uid. rewrite (uid_of_in m u i Hs Hu).
      pose proof (proj1 (Forall_forall _ _) Hpos _ Hu). cbn in *. destruct (Z.eqb_spec u 0); [lia|].
      split; [reflexivity|]. rewrite <- Hp. apply (in_map snd) in Hu. exact Hu. }
  assert (Hk : NoDup (map fst (kept_ids m n))).
  { assert (Hlen : length (kept_ids m n) = length m).
    { rewrite kept_ids_eq. destruct m as [|p0 m0] eqn:Em; [reflexivity|]. rewrite <- Em in *. rewrite rev_length, map_length.
      rewrite <- (map_length snd m). now rewrite Hp. }
    apply (NoDup_incl_NoDup (l := map fst m)); [exact Hn | rewrite !map_length; lia |].
    intros u Hu. apply in_map_iff in Hu as ([u' i] & <- & H). apply Hin in H. apply (in_map fst) in H. exact H. }
  destruct (assoc m k) as [v|] eqn:E.
  - apply assoc_in; [exact Hk|]. apply Hin. now apply assoc_in.
  - destruct (assoc (kept_ids m n) k) as [v|] eqn:E'; [|reflexivity].
    apply assoc_in in E'; [|exact Hk]. apply Hin in E'. apply assoc_in in E'; [|exact Hn]. congruence.
Qed.

Section More.
Context {T : Type} {N : Num T} {X : TextNum T}.

(** ** Negative material indices *)
Lemma skip_attr_pieces n l ps r : (forall p, In p ps -> match p with TNL => False | TEOF => False | t => text t <> ")" end) ->
  length ps < n -> skip_attr n l (St l (ps ++ TCh ")" :: r)) = Some (St l r).
Proof.
  revert n. induction ps as [|p ps IH]; intros n Hp Hn; (destruct n as [|n]; [cbn in Hn; lia|]).
  - cbn [app skip_attr]. unfold scan; cbn [ln rest scan_from]. now rewrite Nat.eqb_refl.
  - cbn [app skip_attr length] in *. unfold scan; cbn [ln rest].
    pose proof (Hp p (or_introl eq_refl)) as H.
    replace (scan_from l (p :: ps ++ TCh ")" :: r)) with (p, St l (ps ++ TCh ")" :: r)) by (destruct p; tauto || reflexivity).
    cbn [ln]. rewrite Nat.eqb_refl. replace (is_eof p) with false by (destruct p; tauto || reflexivity). cbn [negb orb].
    replace (String.eqb (text p) ")") with false by (symmetry; apply String.eqb_neq; destruct p; tauto).
    apply IH; [intros q Hq; apply Hp; now right|lia].
Qed.
Lemma num_not_paren b s : lex_number s = Some (b, s, ""%string) -> s <> ")".
Proof. intros H ->. discriminate. Qed.
Lemma pflt_toks f (x : T) p : In p (toks_of (pflt f x)) -> match p with TNL => False | TEOF => False | t => text t <> ")" end.
Proof.
  unfold pflt. pose proof (fmt_num_ok f x) as E. destruct (fmt_num f x) as [[neg isint] s]. apply num_not_paren in E.
  destruct neg; cbn; intros H; repeat destruct H as [<-|H]; try contradiction; try exact E; discriminate.
Qed.
Definition uv_pieces (us : list (vec2 T)) := spaced (map (fun u => spaced [pflt FV (v2x u); pflt FV (v2y u)]) us).
Lemma uv_toks us p : In p (toks_of (uv_pieces us)) -> match p with TNL => False | TEOF => False | t => text t <> ")" end.
Proof.
  unfold uv_pieces. rewrite toks_spaced, map_map. intros H. apply in_concat in H as (x & Hx & H).
  apply in_map_iff in Hx as (u & <- & _). rewrite toks_spaced in H. cbn [map concat] in H. rewrite app_nil_r in H.
  apply in_app_or in H as [H|H]; eapply pflt_toks; exact H.
Qed.
Lemma scan_ch l c r : scan (St l (TCh c :: r)) = (TCh c, St l r).
Proof. reflexivity. Qed.
Lemma skip_id l c r : skip (St l (TId c :: r)) = St l r.
Proof. reflexivity. Qed.
Lemma skip_num l b c r : skip (St l (TNum b c :: r)) = St l r.
Proof. reflexivity. Qed.
(** [K(-n) L(...)]: [readInt] stops at the sign, the number is taken for the closing bracket, and the
    closing bracket for an unknown attribute, whose argument is the next attribute. *)
Lemma after_negative {A} F n (h : handlers A) set k k2 z x l a r y : (z < 0)%Z ->
  h k = Some (on read_int set) -> h ")" = None ->
  (forall p, In p (toks_of x) -> match p with TNL => False | TEOF => False | t => text t <> ")" end) ->
  length (toks_of x) + 1 < F ->
  attrs_after F n h l (set a 0%Z) (St l r) = Some y ->
  attrs_after F (S (S n)) h l a (St l (toks_of (attr k (pint z)) ++ toks_of (attr k2 x) ++ r)) = Some y.
Proof.
  intros Hz Hk Hp Hx HF H. unfold attr, sp, ch, pint. destruct (Z.ltb_spec z 0); [|lia].
  unfold ch. rewrite !toks_W. autorewrite with tk. rewrite ?toks_K, ?toks_nil, <- ?app_assoc. cbn [app].
  unfold attrs_after at 1. cbn [at_eol rest]. remember (S n) as m eqn:Em. cbn [attrs_loop]. unfold scan; cbn [ln rest scan_from]. rewrite Nat.eqb_refl.
  cbn [negb orb is_eof text]. rewrite Hk. rewrite skip_ch. unfold on, read_int. unfold scan; cbn [ln rest scan_from].
  rewrite (skip_num l). cbn [at_eol rest]. subst m. cbn [attrs_loop].
  rewrite (scan_ch l). cbn [ln]. rewrite Nat.eqb_refl. cbn [negb orb is_eof].
  change (text (TCh ")")) with ")". rewrite Hp. rewrite (skip_id l).
  change (TCh "(" :: toks_of x ++ TCh ")" :: r) with ((TCh "(" :: toks_of x) ++ TCh ")" :: r).
  rewrite (skip_attr_pieces F l (TCh "(" :: toks_of x) r).
  - exact H.
  - intros p [<-|Hin]; [discriminate|]. now apply Hx.
  - cbn [length]. lia.
Qed.
(** A face with a negative material index and UVs comes back with material 0 and without UVs. *)
Lemma read_face_negative F (f : face T) l r : 20 + length (toks_of (uv_pieces (fUVs f))) <= F ->
  Forall (fun v => (0 <= v)%Z) (fVerts f) -> (fMaterial f < 0)%Z -> (fUID f <= 0)%Z ->
  length (fUVs f) = length (fVerts f) ->
  leaves (read_face F (St l (TNL :: toks_of (w_face f) ++ r)))
    (mkFace 0 (fVerts f) 0 []
       (if Nat.eqb (length (fNormals f)) (length (fVerts f)) then map (option_map (rr3 FV)) (fNormals f) else []))
    (TNL :: r).
Proof.
  intros HF Hv Hm Hu Huv. exists (S l).
  unfold w_face. rewrite toks_W. unfold read_face. rewrite !toks_app, <- !app_assoc.
  rewrite read_int_nl, plen_ok, Nat2Z.id.
  eapply (proc_attrs_after F 20); [lia | reflexivity |].
  eapply after_attr; [reflexivity | |].
  { cbn [snd]; unfold on; cbv beta. rewrite (read_n_ok read_int pint (fun z => z)).
    - reflexivity.
    - intros. apply read_int_ok. now apply (proj1 (Forall_forall _ _) Hv). }
  (* M(-k): readInt stops at the sign *)
  destruct (Z.ltb_spec 0 (fUID f)) as [Hu'|Hu']; [lia|]. cbn [when]. rewrite toks_nil, app_nil_l', Huv, Nat.eqb_refl. cbn [when].
  eapply after_negative; [exact Hm | reflexivity | reflexivity | | |].
  { intros p Hp. exact (uv_toks (fUVs f) p Hp). }
  { change (length (toks_of (uv_pieces (fUVs f))) + 1 < F). lia. }
  change (toks_of (spaced (map (fun u => spaced [pflt FV (v2x u); pflt FV (v2y u)]) (fUVs f)))) with (toks_of (uv_pieces (fUVs f))).
  eapply after_when; [reflexivity | |].
  { intros H. apply Nat.eqb_eq in H. cbn [snd]; unfold on; cbv beta. rewrite toks_app, <- app_assoc.
    rewrite <- H at 1. rewrite (read_n_ok read_int normal_flag (fun o => match o with Some _ => 2 | None => 0 end)%Z).
    - rewrite read_normals_ok. reflexivity.
    - intros o l' r' _. apply read_int_ok. destruct o; lia. }
  cbn [toks_of flat_map app NL]. rewrite after_end. f_equal. f_equal. rewrite map_id.
  destruct (Nat.eqb _ _); reflexivity.
Qed.
End More.

(** ** Documents the format holds exactly *)
Section Exact.
Context {T : Type} {N : Num T} {X : TextNum T}.
Lemma rr3_id f (v : vec3 T) : stable3 f v -> rr3 f v = v.
Proof. destruct v as [a b c]. unfold stable3, stable, rr3. cbn [vx vy vz]. intros (-> & -> & ->). reflexivity. Qed.
Lemma map_same {A} (f : A -> A) l : Forall (fun x => f x = x) l -> map f l = l.
Proof. induction 1 as [|x l H _ IH]; [reflexivity|]. cbn [map]. now rewrite H, IH. Qed.
Lemma map_weak {A} (P : A -> Prop) (f : A -> A) l : (forall x, P x -> f x = x) -> Forall P l -> map f l = l.
Proof. intros H Hl. apply map_same. eapply Forall_impl; [|exact Hl]. exact H. Qed.
Lemma per_corner_kept {A} (f : face T) (g : A -> A) l : per_corner f l -> map g l = l ->
  (if Nat.eqb (length l) (length (fVerts f)) then map g l else []) = l.
Proof. intros [->|E] H; [now destruct (Nat.eqb _ _)|]. now rewrite E, Nat.eqb_refl. Qed.
Lemma kept_face_id (f : face T) : exact_face f -> kept_face f = f.
Proof.
  intros (Hu & Hc & Hn & Su & Sn). unfold kept_face.
  rewrite (per_corner_kept f _ _ Hc), (per_corner_kept f _ _ Hn), Z.max_r by
    (first [exact Hu | eapply map_weak; [|exact Su]; intros [a b]; unfold rr2, stable; cbn [v2x v2y]; intros [-> ->]; reflexivity
           | eapply map_weak; [|exact Sn]; intros [v|] H; cbn; [now rewrite rr3_id by auto|reflexivity]]).
  now destruct f.
Qed.
Lemma slashes_id s : no_backslash s -> slashes s = s.
Proof.
  induction s as [|c s IH]; cbn; [reflexivity|]. intros [Hc Hs]. rewrite IH by exact Hs.
  destruct (Ascii.eqb_spec c "\"); [contradiction|reflexivity].
Qed.
Lemma kept_object_same (o : object T) : neqb (nzero : T) nzero = true -> exact_object o -> same_object o (kept_object o).
Proof.
  intros Hrefl (Hu & Hl & Hi & Hv & Hf & Hfa & Hp & Hm & (sc & Es & Hsc) & (ro & Er & Hro) & (tr & Et & Htr) & Hc & Hids).
  exists (kept_ids (oVertexByUID o) (length (oVerts o))). split.
  - unfold kept_object, with_ids. cbv zeta. rewrite Es, Er, Et, !rr3_id by assumption. rewrite Z.max_r, Hl, Hi, Hfa by exact Hu.
    rewrite (map_weak _ _ _ (rr3_id FV) Hv), (map_weak _ _ _ kept_face_id Hf).
    replace (option_map (rr3 F3) (oColor o)) with (oColor o)
      by (destruct (oColor o) as [v|]; cbn; [now rewrite rr3_id by auto|reflexivity]).
    assert (E : (if (0 <? oPatch o)%Z then oPatch o else 0%Z) = oPatch o /\
                (if (0 <? oPatch o)%Z then oPatchSegment o else 0%Z) = oPatchSegment o).
    { destruct Hp as [Hp|[-> ->]]; [|split; reflexivity]. apply Z.ltb_lt in Hp. rewrite Hp. split; reflexivity. }
    destruct E as [-> ->].
    assert (E : forall b, b = (negb (oMirror o =? 0)%Z || negb (neqb (oMirrorDis o) nzero))%bool ->
                (if b then oMirror o else 0%Z) = oMirror o /\ (if b then reread F6 (oMirrorDis o) else nzero) = oMirrorDis o).
    { intros b ->. destruct Hm as [[-> ->]|[Hm Hs]].
      - rewrite Hrefl. split; reflexivity.
      - destruct (Z.eqb_spec (oMirror o) 0); [contradiction|]. cbn [negb orb]. split; [reflexivity|exact Hs]. }
    destruct (E _ eq_refl) as [-> ->]. destruct o; reflexivity.
  - intros k. destruct Hids as [E|(Hn & Hpos & Hperm)]; [now rewrite E|]. now apply ids_kept.
Qed.
Lemma kept_param_id (p : string * param T) : (forall x, snd p = PFloat x -> stable FV x) -> kept_param p = p.
Proof. destruct p as [k q]. unfold kept_param. cbn [fst snd]. destruct q; intros H; try reflexivity. now rewrite (H _ eq_refl). Qed.
Lemma kept_material_id (m : material T) : exact_material m -> kept_material m = m.
Proof.
  intros (Hu & (S1 & S2 & S3 & S4) & Sd & Sa & Se & Ss & Sp & Ht & Hb & Ha & Hec & He).
  unfold kept_material, rr4. rewrite !slashed_eq. unfold stable in *. rewrite S1, S2, S3, S4, Sd, Sa, Se, Ss, Sp, !slashes_id, Z.max_r by assumption.
  replace (option_map kept_ex2 (mtEx2 m)) with (mtEx2 m).
  - rewrite <- Hec. destruct m as [n u [c1 c2 c3 c4]]. reflexivity.
  - destruct (mtEx2 m) as [e|]; [|reflexivity]. destruct (He e eq_refl) as (E1 & E2 & E3). cbn [option_map]. unfold kept_ex2.
    rewrite (map_weak _ _ _ kept_param_id E3). rewrite <- E1 at 1. rewrite <- E2. now destruct e.
Qed.
Lemma kept_scene_id (s : scene T) : exact_scene s -> kept_scene s = s.
Proof.
  intros (Hp & Hl & Hr & Hz & Hf & Hb & Ha). unfold kept_scene. rewrite !rr3_id by assumption. unfold stable in *. rewrite Hz.
  unfold exact_clip, stable in *.
  replace (if nltb nzero (scFront s) then _ else _) with (scFront s) by (destruct (nltb nzero (scFront s)); congruence).
  replace (if nltb nzero (scBack s) then _ else _) with (scBack s) by (destruct (nltb nzero (scBack s)); congruence).
  replace (option_map (rr3 F3) (scAmb s)) with (scAmb s) by (destruct (scAmb s) as [v|]; cbn; [now rewrite rr3_id by auto|reflexivity]).
  now destruct s.
Qed.
Theorem parse_write_exact (d : text_doc T) : neqb (nzero : T) nzero = true -> text_domain d -> exact_doc d ->
  exists d', parse_text (write_text d) = Some d' /\ same_doc d d'.
Proof.
  intros Hrefl Hd (Hs & Hm & Ho). exists (kept_doc d). split; [now apply parse_write_text|].
  unfold same_doc, kept_doc. cbn [tdInclude tdScene tdDoc dMaterials dObjects]. repeat split.
  - destruct (tdScene d) as [s|]; cbn; [now rewrite kept_scene_id by auto|reflexivity].
  - exact (map_weak _ _ _ kept_material_id Hm).
  - clear - Ho Hrefl. induction Ho as [|o l H Hl IH]; constructor; [now apply kept_object_same|exact IH].
Qed.
End Exact.

Lemma app5 {A} (a b c d e l r : list A) : exists pre post, a ++ b ++ c ++ d ++ e ++ l ++ r = pre ++ l ++ post.
Proof. exists (a ++ b ++ c ++ d ++ e), r. rewrite <- !app_assoc. reflexivity. Qed.
Lemma rotation_line {T} {N : Num T} {X : TextNum T} (o : object T) (v : vec3 T) : oRotation o = Some v ->
  exists pre post, w_object o =
    pre ++ W tab :: K (TId "rotation") :: W " " ::
    (pflt FV (vy v) ++ W " " :: pflt FV (vx v) ++ W " " :: pflt FV (vz v) ++ [NL]) ++ post.
Proof.
  intros H. unfold w_object. rewrite H.
  destruct (app5 (open_line [K (TId "Object"); sp; K (TStr (oName o))])
    (when (0 <? oUID o)%Z (line tab "uid" (pint (oUID o)))) (line tab "depth" (pint (oDepth o)))
    (line tab "folding" (pbool (oFolding o))) (opt (oScale o) (fun v => line tab "scale" (pvec FV v)))
    (opt (Some v) (fun v => line tab "rotation" (pvec FV (yxz v))))
    (opt (oTranslation o) (fun v => line tab "translation" (pvec FV v)) ++
  when (negb (oVisible o)) (line tab "visible" (pint 0)) ++
  line tab "locking" (pbool (oLocked o)) ++ line tab "shading" (pint (oShading o)) ++
  line tab "facet" (pflt FV (oFacet o)) ++
  when (negb (oMirror o =? 0)%Z || negb (neqb (oMirrorDis o) nzero))
    (line tab "mirror" (pint (oMirror o)) ++ line tab "mirror_dis" (pflt F6 (oMirrorDis o))) ++
  when (0 <? oPatch o)%Z (line tab "patch" (pint (oPatch o)) ++ line tab "segment" (pint (oPatchSegment o))) ++
  opt (oColor o) (fun v => line tab "color" (pvec F3 v)) ++
  W tab :: open_line ([K (TId "vertex"); sp] ++ plen (oVerts o)) ++
  concat (map (fun v => W (tab ++ tab) :: pvec FV v ++ [NL]) (oVerts o)) ++ close_line tab ++
  when (negb (is_nil (oVertexByUID o))) (w_vertexattr o) ++
  W tab :: open_line ([K (TId "face"); sp] ++ plen (oFaces o)) ++
  concat (map w_face (oFaces o)) ++ close_line tab ++ close_line "")) as (pre & post & E).
  exists pre, post. etransitivity; [exact E|]. clear E. f_equal.
  unfold line, pvec, yxz. cbn [opt vx vy vz spaced app]. unfold sp. do 3 f_equal.
  repeat (rewrite <- !app_assoc; cbn [app]). reflexivity.
Qed.
