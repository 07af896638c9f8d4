(** Proofs about the detection of transparent textures. *)
From Coq Require Import String Ascii List ZArith QArith Qround Bool Lia Lqa.
From Verif.Model Require Import Num Vec Matrix Mqo MqoDoc Normals Mqo2Mmd Gltf Mqo2Gltf Cli Mqo2GltfTextures.
From Verif.Spec Require Import TextureSpec AlphaSpec.
From Verif.Proofs Require Import TextureProofs.
Import ListNotations.
Local Open Scope Z_scope.
Local Open Scope list_scope.

(** *** Pixels *)
Lemma zseq_in a b x : In x (zseq a b) <-> a <= x < b.
Proof.
  unfold zseq. rewrite in_map_iff. split.
  - intros (i & <- & H). apply in_seq in H. lia.
  - intros H. exists (Z.to_nat (x - a)). split; [lia|]. apply in_seq. lia.
Qed.
Lemma opaque_iff p x0 y0 x1 y1 : opaque_in p x0 y0 x1 y1 = false <->
  exists x y, x0 <= x < x1 /\ y0 <= y < y1 /\ 0 <= x < pW p /\ 0 <= y < pH p /\ pOpaque p x y = false.
Proof.
  unfold opaque_in. rewrite <- not_true_iff_false, forallb_forall. split.
  - intros H. destruct (existsb (fun y => existsb (fun x => negb (pOpaque p x y)) (zseq (Z.max 0 x0) (Z.min (pW p) x1))) (zseq (Z.max 0 y0) (Z.min (pH p) y1))) eqn:E.
    + apply existsb_exists in E as (y & Hy & E). apply existsb_exists in E as (x & Hx & E). apply zseq_in in Hx, Hy. apply negb_true_iff in E.
      exists x, y. repeat split; try lia. exact E.
    + exfalso. apply H. intros y Hy. apply forallb_forall. intros x Hx. destruct (pOpaque p x y) eqn:O; [reflexivity|]. exfalso.
      assert (C : existsb (fun y => existsb (fun x => negb (pOpaque p x y)) (zseq (Z.max 0 x0) (Z.min (pW p) x1))) (zseq (Z.max 0 y0) (Z.min (pH p) y1)) = true).
      { apply existsb_exists. exists y. split; [exact Hy|]. apply existsb_exists. exists x. split; [exact Hx|]. now rewrite O. }
      congruence.
  - intros (x & y & H1 & H2 & H3 & H4 & H5) H. specialize (H y). rewrite forallb_forall in H. rewrite (H ltac:(apply zseq_in; lia) x) in H5; [discriminate|]. apply zseq_in. lia.
Qed.

Theorem alpha_sound p rect : pic_alpha p rect = true -> pModel p <> MOther /\ exists x y, 0 <= x < pW p /\ 0 <= y < pH p /\ pOpaque p x y = false.
Proof.
  unfold pic_alpha. intros H. destruct (pModel p); [| |discriminate]; (split; [discriminate|]);
  apply negb_true_iff in H; destruct rect as [r|]; apply opaque_iff in H as (x & y & _ & _ & A & B & C); exists x, y; auto.
Qed.

(** *** Rectangles *)
Definition holds (r : uvrect) (u : vec2 Q) : Prop :=
  (rLeft r <= frac (v2x u) /\ frac (v2x u) <= rRight r /\ rTop r <= frac (v2y u) /\ frac (v2y u) <= rBottom r)%Q.
Lemma qltb_true a b : qltb a b = true -> (a < b)%Q.
Proof. unfold qltb. rewrite negb_true_iff. intros H. apply Qnot_le_lt. intros L. apply Qle_bool_iff in L. congruence. Qed.
Lemma qltb_false a b : qltb a b = false -> (b <= a)%Q.
Proof. unfold qltb. rewrite negb_false_iff. apply Qle_bool_iff. Qed.
Ltac qlt := repeat match goal with |- context [qltb ?a ?b] => let E := fresh in destruct (qltb a b) eqn:E; [apply qltb_true in E|apply qltb_false in E] end.
Lemma add_holds r u : holds (rect_add r u) u.
Proof. unfold holds, rect_add. cbn [rLeft rRight rTop rBottom]. qlt; repeat split; lra. Qed.
Lemma add_keeps r u v : holds r v -> holds (rect_add r u) v.
Proof. unfold holds, rect_add. cbn [rLeft rRight rTop rBottom]. intros (A & B & C & D). qlt; repeat split; lra. Qed.

Section Bounds.
Variables (eps : Q) (mmap : Z -> option Z) (skinned : bool).

(** The corner [u] of material [i] is in the rectangle of the material. *)
Definition kept (bs : bounds) (i : Z) (u : vec2 Q) : Prop := exists r, bound bs i = Some r /\ holds r u.
(** What one corner does to the known vertices. *)
Lemma corner_map f i v (st st1 : cstate Q) id : uv_corner eps skinned f i v st = Some (id, st1) ->
  (csMap st1 = csMap st /\ vm_get (csMap st) v <> []) \/ (exists id', csMap st1 = csMap st ++ [(v, id')]).
Proof.
  unfold uv_corner. destruct (nth_error (fNormals f) i) as [n|]; [|discriminate]. destruct (nth_error (fUVs f) i) as [u|]; [|discriminate].
  assert (AS : forall index k u n (s s1 : cstate Q), assign index k u n s = Some s1 -> csMap s1 = csMap s ++ [(index, k)]).
  { intros index k u0 n0 s s1. unfold assign. destruct (zidx (csUV s) k), (zidx (csNormals s) k), n0; try discriminate. now intros [= <-]. }
  destruct (vm_get (csMap st) v) as [|a l] eqn:V.
  - destruct (assign v v u n st) as [s|] eqn:A; [|discriminate]. cbn. intros [= <- <-]. right. exists v. eapply AS, A.
  - destruct (find_uv eps (csUV st) u (a :: l) None) as [[w|]|]; [| |discriminate].
    + intros [= <- <-]. left. split; [reflexivity|discriminate].
    + destruct (new_vertex skinned v st) as [s|] eqn:NV; [|discriminate]. destruct (assign v (Z.of_nat (length (csVerts st))) u n s) as [s2|] eqn:A; [|discriminate].
      cbn. intros [= <- <-]. right. exists (Z.of_nat (length (csVerts st))). rewrite (AS _ _ _ _ _ _ A). f_equal.
      unfold new_vertex in NV. destruct (zidx (csVerts st) v); [|discriminate]. destruct (if skinned then _ else _); [|discriminate]. now injection NV as <-.
Qed.
Lemma vm_get_in m v : vm_get m v <> [] -> exists id, In (v, id) m.
Proof.
  unfold vm_get. destruct (filter (fun p : Z * Z => fst p =? v) m) as [|[a b] r] eqn:F; [now intros H|]. intros _. exists b.
  assert (H : In (a, b) (filter (fun p : Z * Z => fst p =? v) m)) by (rewrite F; now left). apply filter_In in H as [H1 H2]. cbn in H2. apply Z.eqb_eq in H2 as ->. exact H1.
Qed.

(** [P v] : the corners at vertex [v] are in the rectangle [b]. *)
Lemma corners_kept f (l : list Z) : forall i st b st' b' (P : Z -> Prop), (forall k v, nth_error l k = Some v -> nth_error (fVerts f) (i + k) = Some v) ->
  (forall v id, In (v, id) (csMap st) -> (forall k u, nth_error (fVerts f) k = Some v -> nth_error (fUVs f) k = Some u -> holds b u) \/ P v) ->
  (forall v k u, P v -> nth_error (fVerts f) k = Some v -> nth_error (fUVs f) k = Some u -> holds b u) ->
  (forall j k v, nth_error (fVerts f) j = Some v -> nth_error (fVerts f) k = Some v -> nth_error (fUVs f) j = nth_error (fUVs f) k) ->
  corner_bounds eps skinned f i l st b = Some (st', b') ->
  (forall u, holds b u -> holds b' u) /\ (forall k v u, nth_error l k = Some v -> nth_error (fUVs f) (i + k) = Some u -> holds b' u) /\
  (exists x, csMap st' = csMap st ++ x /\ forall v id, In (v, id) x -> In v (fVerts f)).
Proof.
  induction l as [|v l IH]; intros i st b st' b' P HL HM HP HU E; cbn [corner_bounds] in E.
  { injection E as <- <-. split; [auto|]. split; [intros [|k]; discriminate|]. exists []. rewrite app_nil_r. split; [reflexivity|intros ? ? []]. }
  destruct (uv_corner eps skinned f i v st) as [[id st1]|] eqn:C; [|discriminate]. destruct (nth_error (fUVs f) i) as [u|] eqn:U; [|discriminate].
  assert (Hv : nth_error (fVerts f) i = Some v) by (specialize (HL 0%nat v eq_refl); now rewrite Nat.add_0_r in HL).
  set (b1 := if Nat.eqb (length (csMap st1)) (length (csMap st)) then b else rect_add b u) in *.
  assert (MONO : forall w, holds b w -> holds b1 w) by (intros w H; unfold b1; destruct (Nat.eqb _ _); [exact H|now apply add_keeps]).
  assert (HERE : holds b1 u /\ exists x, csMap st1 = csMap st ++ x /\ forall w j, In (w, j) x -> w = v).
  { destruct (corner_map f i v st st1 id C) as [[M V]|[id' M]].
    - assert (B1 : b1 = b) by (unfold b1; now rewrite M, Nat.eqb_refl). rewrite B1. split; [|exists []; rewrite app_nil_r; split; [exact M|intros ? ? []]].
      apply vm_get_in in V as [j V]. destruct (HM v j V) as [H|H]; [exact (H i u Hv U)|exact (HP v i u H Hv U)].
    - assert (B1 : b1 = rect_add b u). { unfold b1. rewrite M, app_length. cbn. destruct (Nat.eqb_spec (length (csMap st) + 1) (length (csMap st))); [lia|reflexivity]. }
      rewrite B1. split; [apply add_holds|]. exists [(v, id')]. split; [exact M|]. intros w j [H|[]]. congruence. }
  destruct HERE as [HERE (x & X1 & X2)].
  destruct (IH (S i) st1 b1 st' b' P) as (A1 & A2 & (y & Y1 & Y2)).
  - intros k w Hk. specialize (HL (S k) w Hk). now rewrite <- plus_n_Sm in HL.
  - intros w j Hw. rewrite X1 in Hw. apply in_app_iff in Hw as [Hw|Hw].
    + destruct (HM w j Hw) as [H|H]; [left; intros k u' K1 K2; apply MONO; exact (H k u' K1 K2)|now right].
    + apply X2 in Hw. subst w. left. intros k u' K1 K2. assert (u' = u) by (specialize (HU k i v K1 Hv); congruence). now subst u'.
  - intros w k u' H K1 K2. apply MONO. exact (HP w k u' H K1 K2).
  - exact HU.
  - exact E.
  - split; [intros w H; apply A1, MONO, H|]. split.
    + intros [|k] w u' Hk Hu; [rewrite Nat.add_0_r in Hu; replace u' with u by congruence; apply A1, HERE|]. apply (A2 k w u' Hk). now rewrite plus_Sn_m, plus_n_Sm.
    + exists (x ++ y). rewrite Y1, X1, app_assoc. split; [reflexivity|]. intros w j H. apply in_app_iff in H as [H|H]; [|exact (Y2 w j H)].
      apply X2 in H. subst w. eapply nth_error_In, Hv.
Qed.

(** The corners of the conversion are the same as in the conversion of faces. *)
Lemma corner_bounds_state f l : forall i st b st' b', corner_bounds eps skinned f i l st b = Some (st', b') ->
  exists ids, corners (uv_corner eps skinned f) i l st = Some (ids, st').
Proof.
  induction l as [|v l IH]; intros i st b st' b' E; cbn [corner_bounds corners] in *; [injection E as <- <-; eauto|].
  destruct (uv_corner eps skinned f i v st) as [[id st1]|]; [|discriminate]. destruct (nth_error (fUVs f) i); [|discriminate].
  destruct (IH _ _ _ _ _ E) as (ids & ->). eauto.
Qed.
Lemma plain_map f l : forall i (st st' : cstate Q) ids, corners (plain_corner f) i l st = Some (ids, st') -> csMap st' = csMap st.
Proof.
  induction l as [|v l IH]; intros i st st' ids E; cbn [corners] in E; [now injection E as <- <-|].
  destruct (plain_corner f i v st) as [[id st1]|] eqn:P; [|discriminate]. destruct (corners (plain_corner f) (S i) l st1) as [[r st2]|] eqn:C; [|discriminate]. injection E as <- <-.
  rewrite (IH _ _ _ _ C). unfold plain_corner in P. destruct (nth_error (fNormals f) i) as [[n|]|]; try discriminate. destruct (zidx (csNormals st) v); [|discriminate]. now injection P as <- <-.
Qed.

Lemma kept_set bs i r j u : (forall u, kept bs i u -> holds r u) -> kept bs j u -> kept (set_bound bs i r) j u.
Proof.
  intros H (r0 & B & K). unfold kept, set_bound. cbn [bound]. destruct (Z.eqb_spec i j) as [->|]; [|exists r0; auto].
  exists r. split; [reflexivity|]. apply H. exists r0. auto.
Qed.

(** All corners of the faces done so far, [pre], are in the rectangles of their materials. *)
Definition shown (fs : list (face Q)) (bs : bounds) : Prop :=
  forall f k v u, In f fs -> mmap (fMaterial f) <> None -> (3 <= length (fVerts f))%nat -> nth_error (fVerts f) k = Some v -> nth_error (fUVs f) k = Some u -> kept bs (fMaterial f) u.
(** Known vertices belong to faces that were done. *)
Definition known (fs : list (face Q)) (st : cstate Q) : Prop :=
  forall v id, In (v, id) (csMap st) -> exists f, In f fs /\ In v (fVerts f) /\ mmap (fMaterial f) <> None /\ (3 <= length (fVerts f))%nat.

Lemma face_kept f all st bs st' bs' pre : one_use all -> incl (f :: pre) all -> shown pre bs -> known pre st ->
  face_bounds eps mmap skinned f st bs = Some (st', bs') ->
  shown (f :: pre) bs' /\ known (f :: pre) st' /\ (forall i u, kept bs i u -> kept bs' i u).
Proof.
  intros ON INC SH KN E. unfold face_bounds in E. destruct (conv_face eps mmap skinned f st) as [st1|] eqn:CF; [|discriminate].
  assert (If : In f all) by (apply INC; now left). assert (Ip : forall g, In g pre -> In g all) by (intros g H; apply INC; now right).
  unfold conv_face in CF. destruct (Nat.ltb_spec (length (fVerts f)) 3) as [L|L].
  { injection E as <- <-. injection CF as <-. split; [|split; [|auto]].
    - intros g k v u [<-|H] M G3 V U; [lia|eapply SH; eassumption].
    - intros v id H. destruct (KN v id H) as (g & G & R). exists g. split; [now right|exact R]. }
  destruct (mmap (fMaterial f)) as [mat|] eqn:MM.
  2:{ injection E as <- <-. injection CF as <-. split; [|split; [|auto]].
    - intros g k v u [<-|H] M G3 V U; [congruence|eapply SH; eassumption].
    - intros v id H. destruct (KN v id H) as (g & G & R). exists g. split; [now right|exact R]. }
  destruct (fUVs f) as [|u0 us] eqn:UV.
  { injection E as <- <-. destruct (corners (plain_corner f) 0 (fVerts f) st) as [[ids st2]|] eqn:C; [|discriminate].
    destruct ids as [|a [|b0 [|c r]]]; try discriminate. injection CF as <-. split; [|split; [|auto]].
    - intros g k v u [<-|H] M G3 V U; [rewrite UV in U; destruct k; discriminate|eapply SH; eassumption].
    - intros v id H. cbn [set_prims csMap] in H. rewrite (plain_map _ _ _ _ _ _ C) in H. destruct (KN v id H) as (g & G & R). exists g. split; [now right|exact R]. }
  set (b := match bound bs (fMaterial f) with Some b => b | None => rect_of u0 end) in *.
  destruct (corner_bounds eps skinned f 0 (fVerts f) (set_use_uv st true) b) as [[st2 b']|] eqn:CB; [|discriminate]. injection E as <- <-.
  destruct (corner_bounds_state _ _ _ _ _ _ _ CB) as (ids & CC).
  assert (CF' : csMap st1 = csMap st2).
  { rewrite CC in CF. destruct ids as [|x [|y [|z r]]]; try discriminate. now injection CF as <-. }
  assert (BK : forall u, kept bs (fMaterial f) u -> holds b u) by (intros u (r & B & K); unfold b; now rewrite B).
  destruct (corners_kept f (fVerts f) 0 (set_use_uv st true) b st2 b' (fun v => exists g, In g pre /\ In v (fVerts g) /\ mmap (fMaterial g) <> None /\ (3 <= length (fVerts g))%nat)) as (K1 & K2 & (x & X1 & X2)).
  - auto.
  - intros v id H. right. exact (KN v id H).
  - intros v k u (g & G1 & G2 & G3 & G4) V U. apply In_nth_error in G2 as [l G2]. destruct (ON f g k l v If (Ip g G1) V G2) as [M1 M2].
    apply BK. rewrite M1. eapply SH; [exact G1|exact G3|exact G4|exact G2|congruence].
  - intros j k v J K. exact (proj2 (ON f f j k v If If J K)).
  - exact CB.
  - split; [|split].
    + intros g k v u [<-|H] M G3 V U.
      * exists b'. unfold set_bound. cbn [bound]. rewrite Z.eqb_refl. split; [reflexivity|]. exact (K2 k v u V U).
      * apply kept_set; [intros w W; apply K1, BK, W|]. eapply SH; eassumption.
    + intros v id H. rewrite CF', X1 in H. apply in_app_iff in H as [H|H].
      * destruct (KN v id H) as (g & G & R). exists g. split; [now right|exact R].
      * exists f. split; [now left|]. split; [exact (X2 v id H)|]. split; [congruence|lia].
    + intros i u H. apply kept_set; [|exact H]. intros w W. apply K1, BK, W.
Qed.

Lemma faces_kept all fs : forall pre st bs st' bs', one_use all -> incl (fs ++ pre) all -> shown pre bs -> known pre st ->
  faces_bounds eps mmap skinned fs st bs = Some (st', bs') -> shown fs bs' /\ (forall i u, kept bs i u -> kept bs' i u).
Proof.
  induction fs as [|f r IH]; intros pre st bs st' bs' ON INC SH KN E; cbn [faces_bounds] in E.
  { injection E as <- <-. split; [intros ? ? ? ? []|auto]. }
  destruct (face_bounds eps mmap skinned f st bs) as [[st1 bs1]|] eqn:F; [|discriminate].
  destruct (face_kept f all st bs st1 bs1 pre ON) as (S1 & K1 & M1); try assumption.
  { intros g [<-|H]; apply INC; [now left|]. right. apply in_app_iff. now right. }
  destruct (IH (f :: pre) st1 bs1 st' bs' ON) as (S2 & M2); try assumption.
  { intros g H. apply INC. apply in_app_iff in H as [H|[<-|H]]; [right; apply in_app_iff; now left|now left|right; apply in_app_iff; now right]. }
  split; [|intros i u H; apply M2, M1, H]. intros g k v u [<-|H] M G3 V U; [|eapply S2; eassumption].
  apply M2. eapply S1; [now left|eassumption..].
Qed.
End Bounds.

(** The faces that the loop sees. *)
Definition loop_faces (o : object Q) : option (list (face Q)) :=
  match fixh_normals o with Some o1 => option_map (@oFaces Q) (triangulate_object o1) | None => None end.

Lemma bounds_kept scale centi eps bones mmap os : forall bs bs', all_bounds scale centi eps bones mmap os bs = Some bs' ->
  (forall o fs, In o os -> oVisible o = true -> loop_faces o = Some fs -> one_use fs) ->
  (forall o fs, In o os -> oVisible o = true -> loop_faces o = Some fs -> shown mmap fs bs') /\ (forall i u, kept bs i u -> kept bs' i u).
Proof.
  induction os as [|o os IH]; intros bs bs' E H; cbn [all_bounds] in E.
  { injection E as <-. split; [intros ? ? []|auto]. }
  destruct (oVisible o) eqn:V.
  - destruct (object_bounds scale centi eps bones mmap o bs) as [bs1|] eqn:OB; [|discriminate].
    destruct (IH bs1 bs' E) as [A1 A2]; [intros o' fs H1; apply H; now right|].
    unfold object_bounds in OB. destruct (fixh_normals o) as [o1|] eqn:F1; [|discriminate]. destruct (triangulate_object o1) as [o2|] eqn:F2; [|discriminate].
    destruct (get_weights centi o2 bones) as [[ids inf]|]; [|discriminate].
    match type of OB with option_map snd (faces_bounds _ _ ?sk _ ?st0 _) = _ => destruct (faces_bounds eps mmap sk (oFaces o2) st0 bs) as [[st2 bs2]|] eqn:FB; [|discriminate] end.
    injection OB as ->. assert (LF : loop_faces o = Some (oFaces o2)) by (unfold loop_faces; rewrite F1, F2; reflexivity).
    assert (B := fun I S K => faces_kept eps mmap _ (oFaces o2) (oFaces o2) [] _ _ _ _ (H o _ (or_introl eq_refl) V LF) I S K FB).
    destruct B as [B1 B2]; [rewrite app_nil_r; apply incl_refl|intros ? ? ? ? []|intros ? ? []|].
    split; [|auto]. intros o' fs [<-|Ho] Vo Lo; [|exact (A1 o' fs Ho Vo Lo)].
    replace fs with (oFaces o2) by congruence. intros g k v u G1 G2 G3 G4 G5. apply A2. eapply B1; eassumption.
  - destruct (IH bs bs' E) as [A1 A2]; [intros o' fs H1; apply H; now right|]. split; [|exact A2].
    intros o' fs [<-|Ho] Vo Lo; [congruence|exact (A1 o' fs Ho Vo Lo)].
Qed.

(** *** Detection *)
Lemma frac_in x : (0 <= x < 1)%Q -> (frac x == x)%Q.
Proof.
  intros [A B]. unfold frac. rewrite Qred_correct. assert (Qfloor x = 0) as ->; [|change (inject_Z 0) with 0%Q; lra].
  apply floor_is; change (inject_Z 0) with 0%Q; lra.
Qed.
Lemma cell_le n x z : 0 <= z -> (x * inject_Z n <= inject_Z z)%Q -> cell n x <= z.
Proof.
  intros H0 H. unfold cell, trunc. destruct (Qle_bool 0 (inject_Z n * x)) eqn:E.
  - rewrite <- (Qfloor_Z z). apply Qfloor_resp_le. lra.
  - assert (F : 0 <= Qfloor (- (inject_Z n * x))); [|lia]. apply floor_nonneg. assert (~ (0 <= inject_Z n * x)%Q) by (rewrite <- Qle_bool_iff; congruence). lra.
Qed.
Lemma cell_ge n x z : 0 <= z -> (inject_Z z <= x * inject_Z n)%Q -> z <= cell n x.
Proof.
  intros H0 H. unfold cell. rewrite Zle_Qle in H0. change (inject_Z 0) with 0%Q in H0. rewrite trunc_floor by lra. rewrite <- (Qfloor_Z z). apply Qfloor_resp_le. lra.
Qed.
Lemma box_alpha p r (corner : vec2 Q -> Prop) x y : (forall u, corner u -> holds r u) -> in_box corner p x y -> pOpaque p x y = false -> pModel p <> MOther -> pic_alpha p (Some r) = true.
Proof.
  intros H (X & Y & a & b & c & d & Ca & Cb & Cc & Cd & Pa & Pb & Pc & Pd & E1 & E2 & E3 & E4) O M.
  assert (opaque_in p (cell (pW p) (rLeft r)) (cell (pH p) (rTop r)) (cell (pW p) (rRight r)) (cell (pH p) (rBottom r)) = false) as F.
  2:{ unfold pic_alpha. destruct (pModel p); [now rewrite F|now rewrite F|congruence]. }
  apply opaque_iff. exists x, y.
  destruct Pa as [Pa _], Pb as [Pb _], Pc as [_ Pc], Pd as [_ Pd].
  destruct (H a Ca) as (A1 & _ & _ & _), (H b Cb) as (_ & B1 & _ & _), (H c Cc) as (_ & _ & C1 & _), (H d Cd) as (_ & _ & _ & D1).
  rewrite (frac_in _ Pa) in A1. rewrite (frac_in _ Pb) in B1. rewrite (frac_in _ Pc) in C1. rewrite (frac_in _ Pd) in D1.
  assert (W : (0 <= inject_Z (pW p))%Q) by (change 0%Q with (inject_Z 0); rewrite <- Zle_Qle; lia).
  assert (Hh : (0 <= inject_Z (pH p))%Q) by (change 0%Q with (inject_Z 0); rewrite <- Zle_Qle; lia).
  assert (Q1 := Qmult_le_compat_r _ _ _ A1 W). assert (Q2 := Qmult_le_compat_r _ _ _ B1 W).
  assert (Q3 := Qmult_le_compat_r _ _ _ C1 Hh). assert (Q4 := Qmult_le_compat_r _ _ _ D1 Hh).
  assert (cell (pW p) (rLeft r) <= x) by (apply cell_le; [lia|lra]).
  assert (x + 1 <= cell (pW p) (rRight r)) by (apply cell_ge; [lia|lra]).
  assert (cell (pH p) (rTop r) <= y) by (apply cell_le; [lia|lra]).
  assert (y + 1 <= cell (pH p) (rBottom r)) by (apply cell_ge; [lia|lra]).
  repeat split; try lia. exact O.
Qed.

Section Detect.
Variables (file : string -> option (list Z)) (decode_tga decode : list Z -> option pic) (resample : Z -> Z -> pic -> pic)
  (png jpeg : pic -> option (list Z)) (join : string -> string) (opts : topts).
Notation load := (load_image file decode_tga decode join).

(** The pictures of the cache are those of the files. *)
Definition pics (st : tstate) : Prop := forall n r, tiImg (cached (tsCache st) n) = Some r -> r = load n.
Lemma get_pics st n r st' : pics st -> get_image file decode_tga decode join st n = (r, st') -> r = load n /\ pics st'.
Proof.
  intros P E. unfold get_image in E. destruct (tiImg (cached (tsCache st) n)) as [r0|] eqn:C; injection E as <- <-.
  - split; [exact (P n r0 C)|exact P].
  - split; [reflexivity|]. intros m r. rewrite cached_set. destruct (String.eqb_spec n m) as [->|]; [|apply P]. cbn. now intros [= <-].
Qed.
Lemma data_pics st n r st' : pics st -> image_data file decode_tga decode resample png jpeg join opts st n = (r, st') -> pics st'.
Proof.
  intros P E. unfold image_data in E. destruct (mime_of n) as [mime must].
  assert (SC : forall m, scale_texture file decode_tga decode resample png jpeg join opts st n m = (r, st') -> pics st').
  { intros m S1. unfold scale_texture in S1. destruct (get_image file decode_tga decode join st n) as [q st1] eqn:G. injection S1 as _ <-. eapply get_pics; eassumption. }
  destruct (if 0 <? toThreshold opts then _ else _) as [enc|]; [|now injection E as _ <-].
  destruct (enc || must); [eapply SC, E|now injection E as _ <-].
Qed.
Lemma try_pics st n r st' : pics st -> try_texture file decode_tga decode resample png jpeg join opts st n = (r, st') -> pics st'.
Proof.
  intros P E. unfold try_texture in E. destruct (String.eqb n ""); [now injection E as _ <-|]. unfold add_texture in E.
  destruct (tiId (cached (tsCache st) n)); [now injection E as _ <-|]. destruct (image_data file decode_tga decode resample png jpeg join opts st n) as [d st1] eqn:D.
  apply data_pics in D; [|exact P]. destruct d; injection E as _ <-; [|exact D].
  intros m q. rewrite cached_set. destruct (String.eqb_spec n m) as [<-|]; cbn; apply D.
Qed.
Lemma field_pics e f st l st' : pics st -> ext_field file decode_tga decode resample png jpeg join opts e st f = Some (l, st') -> pics st'.
Proof.
  intros P E. destruct f as [k p|k p|k m]; cbn [ext_field] in E.
  - now injection E as _ <-.
  - destruct (color_param e p) as [c|]; [destruct (length c <? 3)%nat; [discriminate|]|]; now injection E as _ <-.
  - destruct (try_texture file decode_tga decode resample png jpeg join opts st (mapping (exMapping e) m)) as [t st1] eqn:T. injection E as _ <-. eapply try_pics; eassumption.
Qed.
Lemma fields_pics e fs : forall st l st', pics st -> ext_fields file decode_tga decode resample png jpeg join opts e st fs = Some (l, st') -> pics st'.
Proof.
  induction fs as [|f r IH]; cbn [ext_fields]; intros st l st' P E; [now injection E as _ <-|].
  destruct (ext_field file decode_tga decode resample png jpeg join opts e st f) as [[l1 st1]|] eqn:E1; [|discriminate].
  destruct (ext_fields file decode_tga decode resample png jpeg join opts e st1 r) as [[l2 st2]|] eqn:E2; [|discriminate]. injection E as _ <-.
  eapply IH; [|exact E2]. eapply field_pics; eassumption.
Qed.
Lemma exts_pics e xs : forall st l st', pics st -> mat_exts file decode_tga decode resample png jpeg join opts e st xs = Some (l, st') -> pics st'.
Proof.
  induction xs as [|[[flag name] fs] r IH]; cbn [mat_exts]; intros st l st' P E; [now injection E as _ <-|].
  destruct (bool_param e flag); [|eapply IH; eassumption].
  destruct (ext_fields file decode_tga decode resample png jpeg join opts e st fs) as [[l1 st1]|] eqn:E1; [|discriminate].
  destruct (mat_exts file decode_tga decode resample png jpeg join opts e st1 r) as [[l2 st2]|] eqn:E2; [|discriminate]. injection E as _ <-.
  eapply IH; [|exact E2]. eapply fields_pics; eassumption.
Qed.

(** A material that is not one of glTF. *)
Definition other_shader (m : material Q) : Prop := match mtEx2 m with Some e => exName e <> "glTF"%string | None => True end.
(** When such a material is blended. *)
Definition seen_alpha (o99 : Q) (m : material Q) (rect : option uvrect) : Prop :=
  (qw (mtColor m) < o99)%Q \/ (toDetect opts = true /\ mtTexture m <> ""%string /\ has_suffix ".jpg" (mtTexture m) = false /\ has_suffix ".bmp" (mtTexture m) = false /\
    exists p, load (mtTexture m) = Some p /\ pic_alpha p rect = true).

Lemma tmat_alpha o99 rough st m rect t st' : pics st -> convert_tmat file decode_tga decode resample png jpeg join opts o99 rough st m rect = Some (t, st') ->
  pics st' /\ gtName (tmMat t) = mtName m /\ (other_shader m -> (gtAlpha (tmMat t) = GBlend <-> seen_alpha o99 m rect)).
Proof.
  intros P E. unfold convert_tmat in E.
  destruct (match mtEx2 m with Some e => if String.eqb (exName e) "glTF" then Some e else None | None => None end) as [e|] eqn:Ee.
  - destruct (mat_exts file decode_tga decode resample png jpeg join opts e st gltf_exts) as [[xs s1]|] eqn:X; [|discriminate]. cbn [option_map fst snd] in E.
    apply exts_pics in X; [|exact P].
    destruct (try_texture file decode_tga decode resample png jpeg join opts s1 (mtTexture m)) as [b s2] eqn:T1. apply try_pics in T1; [|exact X].
    destruct (try_texture file decode_tga decode resample png jpeg join opts s2 (mtBump m)) as [n s3] eqn:T2. apply try_pics in T2; [|exact T1]. injection E as <- <-.
    split; [exact T2|]. unfold other_shader, convert_material. destruct (mtEx2 m) as [e'|]; [|discriminate]. destruct (String.eqb_spec (exName e') "glTF") as [G|]; [|discriminate].
    split; [reflexivity|]. intros []. exact G.
  - assert (CM : forall a, convert_material (toForceUnlit opts) o99 rough (fun _ => a) m = mkGMat (mtName m) (mtColor m) (mtSpecular m) rough (emissive m) (mtDouble m)
       (if nltb (qw (mtColor m)) o99 || a then GBlend else GOpaque) (toForceUnlit opts || String.eqb (shader_name m) "Constant")).
    { intros a. unfold convert_material, shader_name. destruct (mtEx2 m) as [e'|]; [|reflexivity]. destruct (String.eqb (exName e') "glTF"); [discriminate|reflexivity]. }
    assert (LT : nltb (qw (mtColor m)) o99 = true <-> (qw (mtColor m) < o99)%Q).
    { change (nltb (qw (mtColor m)) o99) with (qltb (qw (mtColor m)) o99). split; [apply qltb_true|]. intros H. destruct (qltb (qw (mtColor m)) o99) eqn:Q1; [reflexivity|]. apply qltb_false in Q1. lra. }
    destruct (nltb (qw (mtColor m)) o99) eqn:C; [|destruct (toDetect opts) eqn:D].
    + destruct (try_texture file decode_tga decode resample png jpeg join opts st (mtTexture m)) as [b s2] eqn:T1. apply try_pics in T1; [|exact P].
      destruct (try_texture file decode_tga decode resample png jpeg join opts s2 (mtBump m)) as [n s3] eqn:T2. apply try_pics in T2; [|exact T1]. injection E as <- <-.
      split; [exact T2|]. cbn [tmMat]. rewrite CM, ?C. split; [reflexivity|]. intros _. split; [intros _; left; now apply LT|reflexivity].
    + destruct (has_alpha file decode_tga decode join st (mtTexture m) rect) as [a s1] eqn:H.
      assert (A : pics s1 /\ (a = true <-> mtTexture m <> ""%string /\ has_suffix ".jpg" (mtTexture m) = false /\ has_suffix ".bmp" (mtTexture m) = false /\ exists p, load (mtTexture m) = Some p /\ pic_alpha p rect = true)).
      { unfold has_alpha in H. destruct (String.eqb_spec (mtTexture m) "") as [E0|E0]; cbn [orb] in H; [injection H as <- <-; split; [exact P|]; split; [discriminate|intros [X _]; contradiction]|].
        destruct (has_suffix ".jpg" (mtTexture m)); cbn [orb] in H; [injection H as <- <-; split; [exact P|]; split; [discriminate|intros (_ & X & _); discriminate]|].
        destruct (has_suffix ".bmp" (mtTexture m)); cbn [orb] in H; [injection H as <- <-; split; [exact P|]; split; [discriminate|intros (_ & _ & X & _); discriminate]|].
        destruct (get_image file decode_tga decode join st (mtTexture m)) as [r s2] eqn:G. apply get_pics in G as [G1 G2]; [|exact P]. injection H as <- <-. split; [exact G2|].
        rewrite <- G1. destruct r as [p|]; [|split; [discriminate|intros (_ & _ & _ & p & X & _); discriminate]].
        split; [intros X; repeat (split; [assumption || reflexivity|]); exists p; auto|]. intros (_ & _ & _ & p' & [= <-] & X). exact X. }
      destruct A as [A1 A2].
      destruct (try_texture file decode_tga decode resample png jpeg join opts s1 (mtTexture m)) as [b s2] eqn:T1. apply try_pics in T1; [|exact A1].
      destruct (try_texture file decode_tga decode resample png jpeg join opts s2 (mtBump m)) as [n s3] eqn:T2. apply try_pics in T2; [|exact T1]. injection E as <- <-.
      split; [exact T2|]. cbn [tmMat]. rewrite CM, ?C. split; [reflexivity|]. cbn [gtAlpha orb]. intros _. split.
      * destruct a; [|discriminate]. intros _. right. split; [exact D|]. now apply A2.
      * intros [X|[_ X]]; [apply LT in X; discriminate|]. apply A2 in X. now rewrite X.
    + destruct (try_texture file decode_tga decode resample png jpeg join opts st (mtTexture m)) as [b s2] eqn:T1. apply try_pics in T1; [|exact P].
      destruct (try_texture file decode_tga decode resample png jpeg join opts s2 (mtBump m)) as [n s3] eqn:T2. apply try_pics in T2; [|exact T1]. injection E as <- <-.
      split; [exact T2|]. cbn [tmMat]. rewrite CM, ?C. split; [reflexivity|]. cbn [gtAlpha orb]. intros _. split; [discriminate|].
      intros [X|[X _]]; [apply LT in X; discriminate|congruence].
Qed.

Theorem tmats_alpha o99 rough ms : forall st ts st', pics st -> convert_tmats file decode_tga decode resample png jpeg join opts o99 rough st ms = Some (ts, st') ->
  Forall2 (fun p t => gtName (tmMat t) = mtName (fst p) /\ (other_shader (fst p) -> (gtAlpha (tmMat t) = GBlend <-> seen_alpha o99 (fst p) (snd p)))) ms ts.
Proof.
  induction ms as [|[m r] ms IH]; intros st ts st' P E; cbn [convert_tmats] in E; [injection E as <- <-; constructor|].
  destruct (convert_tmat file decode_tga decode resample png jpeg join opts o99 rough st m r) as [[t st1]|] eqn:E1; [|discriminate].
  destruct (convert_tmats file decode_tga decode resample png jpeg join opts o99 rough st1 ms) as [[l st2]|] eqn:E2; [|discriminate]. injection E as <- <-.
  destruct (tmat_alpha _ _ _ _ _ _ _ P E1) as (P1 & N1 & A1). constructor; [split; assumption|]. eapply IH; eassumption.
Qed.
Lemma pics0 : pics ts0. Proof. intros n r. discriminate. Qed.

(** Materials are blended only if their colour or a pixel of their texture is not opaque. *)
Theorem blend_sound o99 rough ms ts st : convert_tmats file decode_tga decode resample png jpeg join opts o99 rough ts0 ms = Some (ts, st) ->
  Forall2 (fun p t => other_shader (fst p) -> gtAlpha (tmMat t) = GBlend ->
    (qw (mtColor (fst p)) < o99)%Q \/ (toDetect opts = true /\ exists pc x y, load (mtTexture (fst p)) = Some pc /\ 0 <= x < pW pc /\ 0 <= y < pH pc /\ pOpaque pc x y = false)) ms ts.
Proof.
  intros E. assert (H := tmats_alpha o99 rough ms ts0 ts st pics0 E). clear E.
  induction H as [|p t ms ts [_ H1] H2 IH]; constructor; [|exact IH]. intros O B. apply (H1 O) in B as [B|(D & _ & _ & _ & pc & L & A)]; [now left|].
  right. split; [exact D|]. apply alpha_sound in A as (_ & x & y & A). exists pc, x, y. intuition.
Qed.

(** In documents whose vertices have one texture coordinate and one material each, a transparent pixel in the middle of the faces is seen. *)
Theorem blend_complete scale centi eps ignore o99 rough d bones sets ts st i m :
  let os := target_objects ignore sets (fix_ids 0 (dObjects d)) in
  export_materials file decode_tga decode resample png jpeg join opts scale centi eps ignore o99 rough d bones sets = Some (ts, st) ->
  (forall o fs, In o os -> oVisible o = true -> loop_faces o = Some fs -> one_use fs) ->
  nth_error (dMaterials d) i = Some m -> material_kept os (Z.of_nat i) (mtName m) = true -> other_shader m -> toDetect opts = true ->
  mtTexture m <> ""%string -> has_suffix ".jpg" (mtTexture m) = false -> has_suffix ".bmp" (mtTexture m) = false ->
  forall p x y, load (mtTexture m) = Some p -> pModel p <> MOther -> pOpaque p x y = false ->
  in_box (fun u => exists o fs, In o os /\ oVisible o = true /\ loop_faces o = Some fs /\ corner_at fs (Z.of_nat i) u) p x y ->
  exists t, In t ts /\ gtName (tmMat t) = mtName m /\ gtAlpha (tmMat t) = GBlend.
Proof.
  intros os E ON Hm MK OS D T1 T2 T3 p x y L PM O B. unfold export_materials in E. fold os in E.
  set (mm := material_map os 0 0 (map (@mtName Q) (dMaterials d))) in *.
  assert (AS : exists k, assoc mm (Z.of_nat i) = Some k).
  { unfold mm. assert (G : forall l j (z k : Z), nth_error l j = Some m -> z + Z.of_nat j = Z.of_nat i -> exists q, assoc (material_map os z k (map (@mtName Q) l)) (Z.of_nat i) = Some q).
    { induction l as [|m0 l IH]; intros [|j] z k H Hz; try discriminate; cbn [map material_map nth_error] in *.
      - injection H as ->. replace z with (Z.of_nat i) by lia. rewrite MK. cbn [assoc]. rewrite Z.eqb_refl. eauto.
      - destruct (material_kept os z (mtName m0)); [cbn [assoc]; destruct (Z.eqb_spec z (Z.of_nat i)); [lia|]|]; (eapply IH; [exact H|lia]). }
    eapply G; [exact Hm|lia]. }
  destruct AS as [k AS]. destruct (all_bounds scale centi eps bones (assoc mm) os []) as [bs|] eqn:AB; [|discriminate].
  destruct (bounds_kept _ _ _ _ _ _ _ _ AB ON) as [SH _].
  assert (A := tmats_alpha o99 rough _ ts0 ts st pics0 E).
  match type of A with Forall2 _ ?l _ => assert (IN : In (m, bound bs (Z.of_nat i)) l) end.
  { apply in_map_iff. exists (i, m). split; [reflexivity|]. apply filter_In. cbn [fst]. rewrite AS. split; [|reflexivity].
    unfold numbered. apply nth_error_In with i. clear -Hm. revert Hm. generalize (dMaterials d). intros l.
    assert (G : forall l i a, nth_error l i = Some m -> nth_error (combine (seq a (length l)) l) i = Some ((a + i)%nat, m)).
    { clear. induction l as [|q l IH]; intros [|i] a H; try discriminate; cbn in *; [injection H as ->; now rewrite Nat.add_0_r|]. rewrite (IH i (S a) H). do 2 f_equal. lia. }
    intros H. now rewrite (G l i 0%nat H). }
  clear E AB. induction A as [|q t l ts [A1 A2] A3 IH]; [destruct IN|]. destruct IN as [->|IN].
  - exists t. split; [now left|]. split; [exact A1|]. cbn [fst snd] in A2. apply (A2 OS). right. repeat (split; [assumption|]). exists p. split; [exact L|].
    assert (KC : forall u, (exists o fs, In o os /\ oVisible o = true /\ loop_faces o = Some fs /\ corner_at fs (Z.of_nat i) u) -> kept bs (Z.of_nat i) u).
    { intros u (o & fs & O1 & O2 & O3 & (f & c & v & F1 & F2 & F3 & F4 & F5)). rewrite <- F2. eapply (SH o fs O1 O2 O3 f c v u); try assumption. rewrite F2. congruence. }
    assert (B' := B). destruct B as (X & Y & a & b & c & e & Ca & R). destruct (KC a Ca) as (r & R1 & R2). rewrite R1. refine (box_alpha p r _ x y _ B' O PM).
    intros u Hu. destruct (KC u Hu) as (r' & R1' & R2'). congruence.
  - destruct (IH IN) as (t' & I1 & I2). exists t'. split; [now right|exact I2].
Qed.
End Detect.
