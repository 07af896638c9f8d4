(** Proofs about the modifications of prefab instances: C94. *)
From Coq Require Import Decimal DecimalString DecimalN DecimalPos String Ascii List ZArith NArith Bool Lia.
From Verif.Model Require Import Vec Cli UnityProject UnityScene.
From Verif.Spec Require Import CliSpec PrefabSpec.
From Verif.Proofs Require Import CliProofs.
Import ListNotations.
Local Open Scope string_scope.
Local Open Scope list_scope.
Local Open Scope Z_scope.

(** ** Paths *)
Lemma concat_split c s : String.concat (String c "") (split c s) = s.
Proof.
  induction s as [|d s IH]; [reflexivity|]. cbn [split]. destruct (Ascii.eqb_spec d c) as [->|N].
  - destruct (split c s) as [|w l] eqn:E; [|cbn [String.concat String.append]; now rewrite <- IH].
    destruct s as [|e s]; [discriminate|]. cbn [split] in E. destruct (Ascii.eqb e c); [discriminate|]. destruct (split c s); discriminate.
  - destruct (split c s) as [|w l] eqn:E.
    + destruct s as [|e s]; [discriminate|]. cbn [split] in E. destruct (Ascii.eqb e c); [discriminate|]. destruct (split c s); discriminate.
    + destruct l as [|v l]; cbn [String.concat String.append] in *; now rewrite IH.
Qed.
Lemma split_nonempty c s : split c s <> [].
Proof. destruct s as [|d s]; [discriminate|]. cbn [split]. destruct (Ascii.eqb d c); [discriminate|]. destruct (split c s); discriminate. Qed.
Lemma split_without c s : Forall (without c) (split c s).
Proof.
  induction s as [|d s IH]; cbn [split]; [repeat constructor; intros []|]. destruct (Ascii.eqb_spec d c) as [->|N]; [constructor; [intros []|exact IH]|].
  destruct (split c s) as [|w l]; [constructor; [|constructor]; apply without_cons; split; [exact N|intros []]|]. inversion IH as [|? ? A B]; subst. constructor; [|exact B]. apply without_cons. now split.
Qed.
Lemma split_two a b : without "." a -> without "." b -> forall p, split "." p = [a; b] <-> p = (a ++ "." ++ b)%string.
Proof.
  intros A B p. split; intro H.
  - rewrite <- (concat_split "." p), H. reflexivity.
  - subst p. change ("." ++ b)%string with (String "." b). rewrite split_app by exact A. now rewrite split_word.
Qed.
Lemma coord_two a c p : without "." a -> without "." c -> c <> "" -> (hd "" (split "." p) = a /\ coord (split "." p) = c <-> p = (a ++ "." ++ c)%string).
Proof.
  intros A C N. rewrite <- (split_two a c A C p). split.
  - intros [H1 H2]. destruct (split "." p) as [|x [|y [|z l]]]; cbn in *; subst; congruence.
  - intros ->. now split.
Qed.

(** ** Decimal numbers *)
Fixpoint dval (acc : Z) (d : uint) : Z :=
  match d with
  | Nil => acc
  | D0 l => dval (acc * 10 + 0) l | D1 l => dval (acc * 10 + 1) l | D2 l => dval (acc * 10 + 2) l | D3 l => dval (acc * 10 + 3) l | D4 l => dval (acc * 10 + 4) l
  | D5 l => dval (acc * 10 + 5) l | D6 l => dval (acc * 10 + 6) l | D7 l => dval (acc * 10 + 7) l | D8 l => dval (acc * 10 + 8) l | D9 l => dval (acc * 10 + 9) l
  end.
Lemma digits_uint d : forall acc, digits acc (NilEmpty.string_of_uint d) = Some (dval acc d).
Proof. induction d; intro acc; [reflexivity| | | | | | | | | |]; cbn [NilEmpty.string_of_uint digits]; cbn [digit nat_of_ascii]; exact (IHd _). Qed.
Lemma dval_pos d : forall p, Z.pos (Pos.of_uint_acc d p) = dval (Z.pos p) d.
Proof. induction d; intro p; [reflexivity| | | | | | | | | |]; cbn [Pos.of_uint_acc dval]; rewrite IHd; f_equal; lia. Qed.
Lemma dval_uint d : Z.of_N (Pos.of_uint d) = dval 0 d.
Proof. induction d; [reflexivity| | | | | | | | | |]; cbn [Pos.of_uint dval]; [exact IHd|..]; cbn [Z.of_N]; rewrite dval_pos; reflexivity. Qed.
Lemma digits_nat n : digits 0 (NilEmpty.string_of_uint (N.to_uint (N.of_nat n))) = Some (Z.of_nat n).
Proof. rewrite digits_uint, <- dval_uint. f_equal. change (Pos.of_uint (N.to_uint (N.of_nat n))) with (N.of_uint (N.to_uint (N.of_nat n))). rewrite DecimalN.Unsigned.of_to. lia. Qed.
(** Decimal digits only. *)
Definition is_digit (c : ascii) : bool := match digit c with Some _ => true | None => false end.
Lemma string_digits d : forallb is_digit (list_ascii_of_string (NilEmpty.string_of_uint d)) = true.
Proof. induction d; [reflexivity|..]; exact IHd. Qed.
Lemma digits_without c s : is_digit c = false -> forallb is_digit (list_ascii_of_string s) = true -> without c s.
Proof. intros D F I. rewrite forallb_forall in F. apply F in I. congruence. Qed.
Lemma uint_head d : d <> Nil -> exists c r, NilEmpty.string_of_uint d = String c r /\ is_digit c = true.
Proof. destruct d; intro H; [congruence|..]; (eexists; eexists; split; [reflexivity|reflexivity]). Qed.
Lemma to_uint_nonnil n : N.to_uint n <> Nil.
Proof.
  destruct n as [|p]; [discriminate|]. cbn [N.to_uint]. intro H. assert (X := DecimalPos.Unsigned.of_to p). unfold Pos.of_uint in X. rewrite H in X. discriminate.
Qed.
Lemma parse_nat n : Z.of_nat n <= 2147483647 -> parse_int32 (NilEmpty.string_of_uint (N.to_uint (N.of_nat n))) = Some (Z.of_nat n).
Proof.
  intro L. destruct (uint_head _ (to_uint_nonnil (N.of_nat n))) as (c & r & E & D). assert (X := digits_nat n). unfold parse_int32. rewrite E in *.
  assert (B : (match String c r with String "-" r0 => (true, r0) | String "+" r0 => (false, r0) | _ => (false, String c r) end) = (false, String c r)).
  { destruct c as [[|] [|] [|] [|] [|] [|] [|] [|]]; try reflexivity; discriminate D. }
  rewrite B. rewrite X. replace (-2147483648 <=? Z.of_nat n) with true by (symmetry; apply Z.leb_le; lia). replace (Z.of_nat n <=? 2147483647) with true by (symmetry; apply Z.leb_le; lia). reflexivity.
Qed.
Lemma substring_all s r : substring 0 (String.length s) (s ++ r)%string = s.
Proof. induction s; cbn; [now destruct r|now rewrite IHs]. Qed.
Lemma length_app a b : String.length (a ++ b)%string = (String.length a + String.length b)%nat.
Proof. induction a; cbn; [reflexivity|now rewrite IHa]. Qed.
Lemma material_split n : split "." (material_path n) = ["m_Materials"; "Array"; ("data[" ++ NilEmpty.string_of_uint (N.to_uint (N.of_nat n)) ++ "]")%string].
Proof.
  unfold material_path. set (d := NilEmpty.string_of_uint _).
  change ("m_Materials.Array.data[" ++ d ++ "]")%string with ("m_Materials" ++ String "." ("Array" ++ String "." ("data[" ++ d ++ "]")))%string.
  rewrite split_app by (cbv; intuition discriminate). rewrite split_app by (cbv; intuition discriminate). rewrite split_word; [reflexivity|].
  assert (W : without "." d) by (apply digits_without; [reflexivity|apply string_digits]). unfold without in *. intro I.
  assert (A : forall a b, list_ascii_of_string (a ++ b)%string = list_ascii_of_string a ++ list_ascii_of_string b) by (induction a as [|x a IHa]; intro b; cbn; [reflexivity|now rewrite IHa]).
  rewrite !A in I. apply in_app_or in I. destruct I as [I|I]; [cbv in I; intuition discriminate|]. apply in_app_or in I. destruct I as [I|I]; [contradiction|cbv in I; intuition discriminate].
Qed.
Lemma material_index n : Z.of_nat n <= 2147483647 -> array_index (split "." (material_path n)) = Index (Z.of_nat n).
Proof.
  intro L. rewrite material_split. cbn [array_index]. rewrite String.eqb_refl. set (d := NilEmpty.string_of_uint _). cbn [andb].
  assert (H : has_prefix "data[" ("data[" ++ d ++ "]") = true) by reflexivity. rewrite H.
  assert (E : String.length ("data[" ++ d ++ "]") = (6 + String.length d)%nat) by (rewrite !length_app; cbn; lia).
  rewrite E. replace ((6 + String.length d <=? 5)%nat) with false by (symmetry; apply Nat.leb_gt; lia).
  replace (6 + String.length d - 6)%nat with (String.length d) by lia. change (substring 5 (String.length d) ("data[" ++ d ++ "]")) with (substring 0 (String.length d) (d ++ "]")).
  rewrite substring_all. unfold d. now rewrite parse_nat.
Qed.
Lemma material_inj n m : material_path n = material_path m -> n = m.
Proof.
  intro H. assert (X := f_equal (split ".") H). rewrite !material_split in X. injection X as X.
  set (a := NilEmpty.string_of_uint (N.to_uint (N.of_nat n))) in *. set (b := NilEmpty.string_of_uint (N.to_uint (N.of_nat m))) in *.
  assert (Y : forall u v, (u ++ "]")%string = (v ++ "]")%string -> u = v).
  { induction u as [|c u IH]; intros [|e v] Q; cbn in Q; [reflexivity|injection Q as _ Q; destruct v; discriminate|injection Q as _ Q; destruct u; discriminate|]. injection Q as -> Q. now rewrite (IH v Q). }
  apply Y in X. assert (Q := digits_nat n). assert (R := digits_nat m). fold a in Q. fold b in R. rewrite X in Q. rewrite Q in R. injection R as R. lia.
Qed.

(** ** One element *)
Section P.
Context {T : Type}.
Variables (zero : T) (of_int : Z -> T) (to_int : T -> Z).
Notation modify := (modify zero of_int to_int).
Notation modify_all := (modify_all zero of_int to_int).
Notation float_of := (float_of zero of_int).

Lemma find_upd (l : list (Z * elem T)) k j f : find_elem (upd_elems l j f) k = if j =? k then omap f (find_elem l k) else find_elem l k.
Proof.
  induction l as [|[i e] l IH]; [now destruct (j =? k)|]. unfold upd_elems. cbn [map fst snd]. destruct (i =? j) eqn:E.
  - apply Z.eqb_eq in E. subst j. cbn [find_elem]. destruct (i =? k) eqn:F; [reflexivity|]. etransitivity; [exact IH|]. try rewrite F. reflexivity.
  - cbn [find_elem]. destruct (i =? k) eqn:F.
    + apply Z.eqb_eq in F. subst k. rewrite Z.eqb_sym, E. reflexivity.
    + exact IH.
Qed.
Lemma find_upd_names (l : list (Z * elem T)) j f : map fst (upd_elems l j f) = map fst l.
Proof. unfold upd_elems. rewrite map_map. apply map_ext. intros [i e]. cbn [fst snd]. now destruct (i =? j). Qed.
Lemma target_found (s : scene T) r : get_element2 s [] r None = match r with
  | Some r => if srFile r =? 0 then None else match find_elem (scElems s) (srFile r) with Some _ => Some ([], srFile r) | None => None end
  | None => None end.
Proof. unfold get_element2. destruct r as [r|]; [|reflexivity]. cbn [sub valid]. rewrite andb_false_r. destruct (srFile r =? 0); reflexivity. Qed.
(** One step. *)
Lemma mod_step m r (s s' : scene T) k e : k <> 0 -> modify_all (m :: r) s = Some s' -> find_elem (scElems s) k = Some e ->
  exists s1 e1, modify_all r s1 = Some s' /\ find_elem (scElems s1) k = Some e1 /\ if targets k m then modify m e = Some e1 else e1 = e.
Proof.
  intros K H F. cbn [UnityScene.modify_all] in H. rewrite target_found in H. unfold targets. destruct (pmTarget m) as [q|]; [|now exists s, e].
  destruct (srFile q =? 0) eqn:Z0.
  - apply Z.eqb_eq in Z0. exists s, e. split; [exact H|]. split; [exact F|]. rewrite Z0. apply Z.eqb_neq in K. rewrite Z.eqb_sym in K. now rewrite K.
  - destruct (find_elem (scElems s) (srFile q)) as [x|] eqn:X; cbn [snd] in H.
    + rewrite X in H. destruct (modify m x) as [x'|] eqn:M; [|discriminate]. cbn [update_at] in H.
      exists (set_elems s (upd_elems (scElems s) (srFile q) (fun _ => x'))). exists (if srFile q =? k then x' else e). split; [exact H|]. cbn [set_elems scElems]. rewrite find_upd, F.
      destruct (srFile q =? k) eqn:E; [|now split]. apply Z.eqb_eq in E. rewrite E, F in X. injection X as ->. split; [reflexivity|exact M].
    + exists s, e. split; [exact H|]. split; [exact F|]. destruct (srFile q =? k) eqn:E; [|reflexivity]. apply Z.eqb_eq in E. congruence.
Qed.
Lemma last_cons k path m (r : list (@pmod T)) : last_mod k path (m :: r) = match last_mod k path r with Some x => Some x | None => if targets k m && String.eqb (pmPath m) path then Some m else None end.
Proof.
  unfold last_mod. cbn [rev]. induction (rev r) as [|x l IH]; cbn [app find]; [reflexivity|]. destruct (targets k x && String.eqb (pmPath x) path); [reflexivity|exact IH].
Qed.
(** Generic: a part of an element that one modification sets. *)
Lemma mods_fold {E A : Type} (emb : E -> elem T) (P : @pmod T -> Prop) (I : E -> Prop) k path (get : E -> A) (value : @pmod T -> A) :
  (forall m x e', P m -> I x -> targets k m = true -> modify m (emb x) = Some e' -> exists x', e' = emb x' /\ I x' /\ get x' = if String.eqb (pmPath m) path then value m else get x) ->
  k <> 0 -> forall ms s s' x, Forall P ms -> I x -> modify_all ms s = Some s' -> find_elem (scElems s) k = Some (emb x) ->
  exists x', find_elem (scElems s') k = Some (emb x') /\ I x' /\ get x' = match last_mod k path ms with Some m => value m | None => get x end.
Proof.
  intros H K. induction ms as [|m r IH]; intros s s' x FP Ix M F.
  - cbn in M. injection M as <-. exists x. split; [exact F|]. now split.
  - inversion FP as [|? ? P1 P2]; subst. destruct (mod_step m r s s' k _ K M F) as (s1 & e1 & M1 & F1 & C). rewrite last_cons. destruct (targets k m) eqn:TG.
    + destruct (H m x e1 P1 Ix TG C) as (x1 & -> & I1 & G). destruct (IH s1 s' x1 P2 I1 M1 F1) as (x' & F' & I' & G'). exists x'. split; [exact F'|]. split; [exact I'|]. rewrite G'.
      destruct (last_mod k path r); [reflexivity|]. cbn [andb]. rewrite G. now destruct (String.eqb (pmPath m) path).
    + subst e1. destruct (IH s1 s' x P2 Ix M1 F1) as (x' & F' & I' & G'). exists x'. split; [exact F'|]. split; [exact I'|]. rewrite G'. now destruct (last_mod k path r).
Qed.

Lemma set_v3_spec ix p v (w w' : vec3 T) : set_v3 zero of_int ix p v w = Some w' ->
  vx w' = (if String.eqb (coord p) "x" then float_of v else vx w) /\ vy w' = (if String.eqb (coord p) "y" then float_of v else vy w) /\ vz w' = (if String.eqb (coord p) "z" then float_of v else vz w).
Proof.
  unfold set_v3. destruct ix; try discriminate. intro H. injection H as <-. destruct (String.eqb_spec (coord p) "x") as [E|]; [rewrite ?E; now repeat split|].
  destruct (String.eqb_spec (coord p) "y") as [E|]; [rewrite ?E; now repeat split|]. destruct (String.eqb_spec (coord p) "z") as [E|]; rewrite ?E; now repeat split.
Qed.
Lemma set_v4_spec ix p v (w w' : vec4 T) : set_v4 zero of_int ix p v w = Some w' ->
  qx w' = (if String.eqb (coord p) "x" then float_of v else qx w) /\ qy w' = (if String.eqb (coord p) "y" then float_of v else qy w) /\
  qz w' = (if String.eqb (coord p) "z" then float_of v else qz w) /\ qw w' = (if String.eqb (coord p) "w" then float_of v else qw w).
Proof.
  unfold set_v4. destruct ix; try discriminate. intro H. injection H as <-. destruct (String.eqb_spec (coord p) "x") as [E|]; [rewrite ?E; now repeat split|].
  destruct (String.eqb_spec (coord p) "y") as [E|]; [rewrite ?E; now repeat split|]. destruct (String.eqb_spec (coord p) "z") as [E|]; [rewrite ?E; now repeat split|]. destruct (String.eqb_spec (coord p) "w") as [E|]; rewrite ?E; now repeat split.
Qed.
(** Comparing paths by their parts. *)
Lemma path_parts a c p : without "." a -> without "." c -> c <> "" -> String.eqb p (a ++ "." ++ c) = String.eqb (hd "" (split "." p)) a && String.eqb (coord (split "." p)) c.
Proof.
  intros A C N. apply eq_true_iff_eq. rewrite andb_true_iff, !String.eqb_eq. symmetry. now apply coord_two.
Qed.
Ltac wo := cbv; intuition discriminate.

(** A modification of a transform. *)
Lemma modify_tr m (t : utrans T) e' : modify m (ETr t) = Some e' -> exists t', e' = ETr t' /\ utGo t' = utGo t /\ utFather t' = utFather t /\ utCorr t' = utCorr t /\ utPrefab t' = utPrefab t /\
  (utChildren t' = utChildren t \/ hd "" (split "." (pmPath m)) = "m_Children") /\
  forall path get, number path = Some get -> get t' = if String.eqb (pmPath m) path then float_of (pmValue m) else get t.
Proof.
  intro H. unfold UnityScene.modify in H. set (p := split "." (pmPath m)) in *.
  assert (PP : forall a c, without "." a -> without "." c -> c <> "" -> String.eqb (pmPath m) (a ++ "." ++ c) = String.eqb (hd "" p) a && String.eqb (coord p) c) by (intros; now apply path_parts).
  assert (Q : forall t', (vx (utPos t') = if String.eqb (hd "" p) "m_LocalPosition" && String.eqb (coord p) "x" then float_of (pmValue m) else vx (utPos t)) ->
    (vy (utPos t') = if String.eqb (hd "" p) "m_LocalPosition" && String.eqb (coord p) "y" then float_of (pmValue m) else vy (utPos t)) ->
    (vz (utPos t') = if String.eqb (hd "" p) "m_LocalPosition" && String.eqb (coord p) "z" then float_of (pmValue m) else vz (utPos t)) ->
    (qx (utRot t') = if String.eqb (hd "" p) "m_LocalRotation" && String.eqb (coord p) "x" then float_of (pmValue m) else qx (utRot t)) ->
    (qy (utRot t') = if String.eqb (hd "" p) "m_LocalRotation" && String.eqb (coord p) "y" then float_of (pmValue m) else qy (utRot t)) ->
    (qz (utRot t') = if String.eqb (hd "" p) "m_LocalRotation" && String.eqb (coord p) "z" then float_of (pmValue m) else qz (utRot t)) ->
    (qw (utRot t') = if String.eqb (hd "" p) "m_LocalRotation" && String.eqb (coord p) "w" then float_of (pmValue m) else qw (utRot t)) ->
    (vx (utScale t') = if String.eqb (hd "" p) "m_LocalScale" && String.eqb (coord p) "x" then float_of (pmValue m) else vx (utScale t)) ->
    (vy (utScale t') = if String.eqb (hd "" p) "m_LocalScale" && String.eqb (coord p) "y" then float_of (pmValue m) else vy (utScale t)) ->
    (vz (utScale t') = if String.eqb (hd "" p) "m_LocalScale" && String.eqb (coord p) "z" then float_of (pmValue m) else vz (utScale t)) ->
    forall path get, number path = Some get -> get t' = if String.eqb (pmPath m) path then float_of (pmValue m) else get t).
  { intros t' H1 H2 H3 H4 H5 H6 H7 H8 H9 H10 path get N. unfold number in N.
    repeat (match type of N with (if String.eqb path ?x then _ else _) = _ => destruct (String.eqb_spec path x) as [->|_] end;
      [injection N as <-;
       first [ exact (eq_trans H1 (f_equal (fun b : bool => if b then _ else _) (eq_sym (PP "m_LocalPosition" "x" ltac:(wo) ltac:(wo) ltac:(wo)))))
             | exact (eq_trans H2 (f_equal (fun b : bool => if b then _ else _) (eq_sym (PP "m_LocalPosition" "y" ltac:(wo) ltac:(wo) ltac:(wo)))))
             | exact (eq_trans H3 (f_equal (fun b : bool => if b then _ else _) (eq_sym (PP "m_LocalPosition" "z" ltac:(wo) ltac:(wo) ltac:(wo)))))
             | exact (eq_trans H4 (f_equal (fun b : bool => if b then _ else _) (eq_sym (PP "m_LocalRotation" "x" ltac:(wo) ltac:(wo) ltac:(wo)))))
             | exact (eq_trans H5 (f_equal (fun b : bool => if b then _ else _) (eq_sym (PP "m_LocalRotation" "y" ltac:(wo) ltac:(wo) ltac:(wo)))))
             | exact (eq_trans H6 (f_equal (fun b : bool => if b then _ else _) (eq_sym (PP "m_LocalRotation" "z" ltac:(wo) ltac:(wo) ltac:(wo)))))
             | exact (eq_trans H7 (f_equal (fun b : bool => if b then _ else _) (eq_sym (PP "m_LocalRotation" "w" ltac:(wo) ltac:(wo) ltac:(wo)))))
             | exact (eq_trans H8 (f_equal (fun b : bool => if b then _ else _) (eq_sym (PP "m_LocalScale" "x" ltac:(wo) ltac:(wo) ltac:(wo)))))
             | exact (eq_trans H9 (f_equal (fun b : bool => if b then _ else _) (eq_sym (PP "m_LocalScale" "y" ltac:(wo) ltac:(wo) ltac:(wo)))))
             | exact (eq_trans H10 (f_equal (fun b : bool => if b then _ else _) (eq_sym (PP "m_LocalScale" "z" ltac:(wo) ltac:(wo) ltac:(wo))))) ]|]).
    discriminate. }
  assert (Same : forall t', utPos t' = utPos t -> utRot t' = utRot t -> utScale t' = utScale t -> hd "" p <> "m_LocalPosition" -> hd "" p <> "m_LocalRotation" -> hd "" p <> "m_LocalScale" ->
    forall path get, number path = Some get -> get t' = if String.eqb (pmPath m) path then float_of (pmValue m) else get t).
  { intros t' E1 E2 E3 N1 N2 N3. apply String.eqb_neq in N1. apply String.eqb_neq in N2. apply String.eqb_neq in N3. apply Q; rewrite ?E1, ?E2, ?E3, ?N1, ?N2, ?N3; reflexivity. }
  repeat match type of H with (if String.eqb (hd "" p) ?x then _ else _) = _ => destruct (String.eqb_spec (hd "" p) x) as [Hd|?] end.
  - destruct (keep_plain (array_index p)); [|discriminate]. injection H as <-. exists t. repeat (split; [now auto|]). apply Same; try reflexivity; rewrite Hd; discriminate.
  - destruct (set_refs (array_index p) (pmRef m) (utChildren t)) as [c|]; [|discriminate]. injection H as <-. eexists. split; [reflexivity|]. repeat (split; [now auto|]). apply Same; try reflexivity; rewrite Hd; discriminate.
  - destruct (set_v4 zero of_int (array_index p) p (pmValue m) (utRot t)) as [q|] eqn:E; [|discriminate]. injection H as <-. eexists. split; [reflexivity|]. repeat (split; [now auto|]).
    apply set_v4_spec in E. destruct E as (E1 & E2 & E3 & E4). apply Q; cbn [utPos utRot utScale]; rewrite ?Hd; try reflexivity; cbn [String.eqb Ascii.eqb Bool.eqb andb]; assumption.
  - destruct (set_v3 zero of_int (array_index p) p (pmValue m) (utPos t)) as [q|] eqn:E; [|discriminate]. injection H as <-. eexists. split; [reflexivity|]. repeat (split; [now auto|]).
    apply set_v3_spec in E. destruct E as (E1 & E2 & E3). apply Q; cbn [utPos utRot utScale]; rewrite ?Hd; try reflexivity; cbn [String.eqb Ascii.eqb Bool.eqb andb]; assumption.
  - destruct (set_v3 zero of_int (array_index p) p (pmValue m) (utScale t)) as [q|] eqn:E; [|discriminate]. injection H as <-. eexists. split; [reflexivity|]. repeat (split; [now auto|]).
    apply set_v3_spec in E. destruct E as (E1 & E2 & E3). apply Q; cbn [utPos utRot utScale]; rewrite ?Hd; try reflexivity; cbn [String.eqb Ascii.eqb Bool.eqb andb]; assumption.
  - destruct (set_v3 zero of_int (array_index p) p (pmValue m) (utHint t)) as [q|] eqn:E; [|discriminate]. injection H as <-. eexists. split; [reflexivity|]. repeat (split; [now auto|]). apply Same; try reflexivity; assumption.
  - destruct (set_int zero of_int to_int (array_index p) (pmValue m)) as [q|] eqn:E; [|discriminate]. injection H as <-. eexists. split; [reflexivity|]. repeat (split; [now auto|]). apply Same; try reflexivity; assumption.
  - injection H as <-. exists t. repeat (split; [now auto|]). apply Same; try reflexivity; assumption.
Qed.

Lemma find_unique (s : scene T) k e e' : find_elem (scElems s) k = Some e -> find_elem (scElems s) k = Some e' -> e = e'.
Proof. congruence. Qed.
(** Transforms after all modifications. *)
Lemma mods_tr ms (s s' : scene T) k t : k <> 0 -> modify_all ms s = Some s' -> find_elem (scElems s) k = Some (ETr t) ->
  exists t', find_elem (scElems s') k = Some (ETr t') /\ utGo t' = utGo t /\ utFather t' = utFather t /\
  forall path get, number path = Some get -> get t' = match last_mod k path ms with Some m => float_of (pmValue m) | None => get t end.
Proof.
  intros K M F.
  assert (H : forall path get, number path = Some get -> exists t', find_elem (scElems s') k = Some (ETr t') /\ (utGo t' = utGo t /\ utFather t' = utFather t) /\
    get t' = match last_mod k path ms with Some m => float_of (pmValue m) | None => get t end).
  { intros path get N. refine (mods_fold (@ETr T) (fun _ => True) (fun x => utGo x = utGo t /\ utFather x = utFather t) k path get (fun m => float_of (pmValue m)) _ K ms s s' t _ _ M F).
    - intros m x e' _ [I1 I2] _ H. destruct (modify_tr m x e' H) as (t' & -> & A & B & _ & _ & _ & C). exists t'. split; [reflexivity|]. split; [split; congruence|]. now apply C.
    - now apply Forall_forall.
    - now split. }
  destruct (H "m_LocalPosition.x" _ eq_refl) as (t' & F' & (A & B) & _). exists t'. split; [exact F'|]. split; [exact A|]. split; [exact B|].
  intros path get N. destruct (H path get N) as (t2 & F2 & _ & G). rewrite F' in F2. injection F2 as <-. exact G.
Qed.
Lemma head_whole name m : without "." name -> @whole T name m -> hd "" (split "." (pmPath m)) = name -> pmPath m = name.
Proof.
  intros W H E. rewrite <- (concat_split "." (pmPath m)) in *. destruct (split "." (pmPath m)) as [|a l] eqn:S0; [now apply split_nonempty in S0|].
  assert (E' : a = name). { rewrite <- S0, concat_split, S0 in E. exact E. } subst a.
  destruct l as [|b l]; [reflexivity|]. exfalso. apply (H (String.concat "." (b :: l))). rewrite <- (concat_split "." (pmPath m)), S0. reflexivity.
Qed.
(** A modification of an object. *)
Lemma modify_go m (g : ugo) e' : modify m (EGo g) = Some e' -> exists g', e' = EGo g' /\ ugComps g' = ugComps g /\
  (hd "" (split "." (pmPath m)) <> "m_CorrespondingSourceObject" -> ugCorr g' = ugCorr g) /\ (hd "" (split "." (pmPath m)) <> "m_PrefabInstance" -> ugPrefab g' = ugPrefab g) /\
  (whole "m_Name" m -> ugName g' = if String.eqb (pmPath m) "m_Name" then string_of (pmValue m) else ugName g) /\
  (whole "m_IsActive" m -> ugActive g' = if String.eqb (pmPath m) "m_IsActive" then to_int (float_of (pmValue m)) else ugActive g).
Proof.
  intro H. unfold UnityScene.modify in H. set (p := split "." (pmPath m)) in *.
  assert (NP : forall name, without "." name -> hd "" p <> name -> String.eqb (pmPath m) name = false).
  { intros name W N. apply String.eqb_neq. intro E. apply N. unfold p. rewrite E, split_word by exact W. reflexivity. }
  assert (WP : forall name, without "." name -> whole name m -> hd "" p = name -> String.eqb (pmPath m) name = true /\ array_index p = NoIndex).
  { intros name W Wh E. assert (X := head_whole name m W Wh E). split; [now apply String.eqb_eq|]. unfold p. rewrite X, split_word by exact W. reflexivity. }
  assert (N1 : without "." "m_Name") by wo. assert (N2 : without "." "m_IsActive") by wo.
  repeat match type of H with (if String.eqb (hd "" p) ?x then _ else _) = _ => destruct (String.eqb_spec (hd "" p) x) as [Hd|?] end.
  - destruct (set_str (array_index p) (ugName g) (pmValue m)) as [q|] eqn:E; [|discriminate]. injection H as <-. eexists. split; [reflexivity|]. cbn [ugComps ugCorr ugPrefab ugName ugActive].
    repeat (split; [now auto|]). split.
    + intro Wh. destruct (WP _ N1 Wh Hd) as [X Y]. rewrite X. rewrite Y in E. cbn in E. now injection E as <-.
    + intros _. rewrite (NP _ N2); [reflexivity|rewrite Hd; discriminate].
  - destruct (set_int zero of_int to_int (array_index p) (pmValue m)) as [q|] eqn:E; [|discriminate]. injection H as <-. eexists. split; [reflexivity|]. cbn [ugComps ugCorr ugPrefab ugName ugActive].
    repeat (split; [now auto|]). split.
    + intros _. rewrite (NP _ N1); [reflexivity|rewrite Hd; discriminate].
    + intro Wh. destruct (WP _ N2 Wh Hd) as [X Y]. rewrite X. rewrite Y in E. cbn in E. now injection E as <-.
  - destruct (set_str (array_index p) (ugTag g) (pmValue m)) as [q|] eqn:E; [|discriminate]. injection H as <-. eexists. split; [reflexivity|]. cbn [ugComps ugCorr ugPrefab ugName ugActive].
    repeat (split; [now auto|]). split; intros _; rewrite NP; auto.
  - destruct (keep_slice (array_index p)) as [q|] eqn:E; [|discriminate]. injection H as <-. eexists. split; [reflexivity|].
    repeat (split; [now auto|]). split; intros _; rewrite NP; auto.
  - destruct (set_ref (array_index p) (pmRef m)) as [q|] eqn:E; [|discriminate]. injection H as <-. eexists. split; [reflexivity|]. cbn [ugComps ugCorr ugPrefab ugName ugActive].
    split; [reflexivity|]. split; [intro X; destruct (X Hd)|]. split; [now auto|]. split; intros _; rewrite NP; auto.
  - destruct (set_ref (array_index p) (pmRef m)) as [q|] eqn:E; [|discriminate]. injection H as <-. eexists. split; [reflexivity|]. cbn [ugComps ugCorr ugPrefab ugName ugActive].
    split; [reflexivity|]. split; [now auto|]. split; [intro X; destruct (X Hd)|]. split; intros _; rewrite NP; auto.
  - injection H as <-. exists g. repeat (split; [now auto|]). split; intros _; rewrite NP; auto.
Qed.
Lemma mods_go ms (s s' : scene T) k g : k <> 0 -> modify_all ms s = Some s' -> find_elem (scElems s) k = Some (EGo g) -> Forall (whole "m_Name") ms -> Forall (whole "m_IsActive") ms ->
  exists g', find_elem (scElems s') k = Some (EGo g') /\ ugComps g' = ugComps g /\
  ugName g' = match last_mod k "m_Name" ms with Some m => string_of (pmValue m) | None => ugName g end /\
  ugActive g' = match last_mod k "m_IsActive" ms with Some m => to_int (float_of (pmValue m)) | None => ugActive g end.
Proof.
  intros K M F W1 W2.
  destruct (mods_fold (@EGo T) (whole "m_Name") (fun x => ugComps x = ugComps g) k "m_Name" ugName (fun m => string_of (pmValue m))) with (ms := ms) (s := s) (s' := s') (x := g) as (g1 & F1 & C1 & G1); auto.
  { intros m x e' P I _ H. destruct (modify_go m x e' H) as (g' & -> & A & _ & _ & B & _). exists g'. split; [reflexivity|]. split; [congruence|]. now apply B. }
  destruct (mods_fold (@EGo T) (whole "m_IsActive") (fun x => ugComps x = ugComps g) k "m_IsActive" ugActive (fun m => to_int (float_of (pmValue m)))) with (ms := ms) (s := s) (s' := s') (x := g) as (g2 & F2 & _ & G2); auto.
  { intros m x e' P I _ H. destruct (modify_go m x e' H) as (g' & -> & A & _ & _ & _ & B). exists g'. split; [reflexivity|]. split; [congruence|]. now apply B. }
  rewrite F1 in F2. injection F2 as <-. now exists g1.
Qed.
(** Materials. *)
Lemma nth_set {A} (x : A) l : forall n m, nth_error (set_nth n x l) m = if Nat.eqb n m then option_map (fun _ => x) (nth_error l m) else nth_error l m.
Proof. induction l as [|a l IH]; intros [|n] [|m]; cbn; try reflexivity; [now destruct (Nat.eqb n m)|apply IH]. Qed.
Lemma length_set {A} (x : A) l : forall n, length (set_nth n x l) = length l.
Proof. induction l as [|a l IH]; intros [|n]; cbn; auto. Qed.
Lemma material_cases (m : @pmod T) : material_mod m -> hd "" (split "." (pmPath m)) = "m_Materials" -> pmPath m = "m_Materials" \/ pmPath m = "m_Materials.Array.size" \/ exists n, Z.of_nat n <= 2147483647 /\ pmPath m = material_path n.
Proof.
  intros [H|H] E; [|now right]. left. apply (head_whole "m_Materials" m); [wo| |exact E]. intros rest X. apply (H rest). exact X.
Qed.
Lemma modify_rend m (r : urend) e' : material_mod m -> modify m (ERend r) = Some e' -> exists r', e' = ERend r' /\ length (urMaterials r') = length (urMaterials r) /\
  forall n, (n < length (urMaterials r))%nat -> nth_error (urMaterials r') n = if String.eqb (pmPath m) (material_path n) then Some (pmRef m) else nth_error (urMaterials r) n.
Proof.
  intros MM H. unfold UnityScene.modify in H. assert (MC := material_cases m MM). set (p := split "." (pmPath m)) in *.
  assert (NM : hd "" p <> "m_Materials" -> forall n, String.eqb (pmPath m) (material_path n) = false).
  { intros N n. apply String.eqb_neq. intro E. apply N. unfold p. rewrite E, material_split. reflexivity. }
  repeat match type of H with (if String.eqb (hd "" p) ?x then _ else _) = _ => destruct (String.eqb_spec (hd "" p) x) as [Hd|?] end.
  - destruct (set_int zero of_int to_int (array_index p) (pmValue m)) as [q|] eqn:E; [|discriminate]. injection H as <-. eexists. split; [reflexivity|]. split; [reflexivity|].
    intros n _. rewrite NM; [reflexivity|rewrite Hd; discriminate].
  - destruct (MC Hd) as [X|[X|(j & J & X)]].
    + unfold p in H. rewrite X in H. cbn in H. injection H as <-. eexists. split; [reflexivity|]. split; [reflexivity|]. intros i _. cbn [urMaterials]. destruct (String.eqb_spec (pmPath m) (material_path i)) as [Y|Y]; [|reflexivity].
      exfalso. assert (Q := f_equal (split ".") (eq_trans (eq_sym X) Y)). rewrite material_split in Q. discriminate.
    + unfold p in H. rewrite X in H. cbn in H. injection H as <-. eexists. split; [reflexivity|]. split; [reflexivity|]. intros i _. cbn [urMaterials]. destruct (String.eqb_spec (pmPath m) (material_path i)) as [Y|Y]; [|reflexivity].
      exfalso. assert (Q := f_equal (split ".") (eq_trans (eq_sym X) Y)). rewrite material_split in Q. discriminate.
    + unfold p in H. rewrite X, (material_index j J) in H. cbn [set_refs] in H. replace (Z.of_nat j <? 0) with false in H by (symmetry; apply Z.ltb_ge; lia). rewrite Nat2Z.id in H.
      assert (EQ : forall i, String.eqb (pmPath m) (material_path i) = Nat.eqb j i).
      { intro i. apply eq_true_iff_eq. rewrite String.eqb_eq, Nat.eqb_eq, X. split; [apply material_inj|now intros ->]. }
      destruct (Z.of_nat j <? Z.of_nat (length (urMaterials r))) eqn:L; injection H as <-; (eexists; split; [reflexivity|]); cbn [urMaterials].
      * split; [apply length_set|]. intros i N. rewrite nth_set, EQ. destruct (Nat.eqb j i); [|reflexivity]. destruct (nth_error (urMaterials r) i) eqn:NE; [reflexivity|]. apply nth_error_None in NE. lia.
      * split; [reflexivity|]. intros i N. rewrite EQ. destruct (Nat.eqb_spec j i) as [->|]; [|reflexivity]. apply Z.ltb_ge in L. lia.
  - injection H as <-. exists r. split; [reflexivity|]. split; [reflexivity|]. intros i _. rewrite NM; auto.
Qed.
Lemma mods_rend ms (s s' : scene T) k r : k <> 0 -> modify_all ms s = Some s' -> find_elem (scElems s) k = Some (ERend r) -> Forall material_mod ms ->
  exists r', find_elem (scElems s') k = Some (ERend r') /\ length (urMaterials r') = length (urMaterials r) /\
  forall n, (n < length (urMaterials r))%nat -> nth_error (urMaterials r') n = match last_mod k (material_path n) ms with Some m => Some (pmRef m) | None => nth_error (urMaterials r) n end.
Proof.
  intros K M F W.
  assert (H : forall n, (n < length (urMaterials r))%nat \/ n = 0%nat -> exists r', find_elem (scElems s') k = Some (ERend r') /\ length (urMaterials r') = length (urMaterials r) /\
     ((n < length (urMaterials r))%nat -> nth_error (urMaterials r') n = match last_mod k (material_path n) ms with Some m => Some (pmRef m) | None => nth_error (urMaterials r) n end)).
  { intros n Hn.
    destruct (mods_fold (@ERend T) material_mod (fun x => length (urMaterials x) = length (urMaterials r)) k (material_path n) (fun x => if (n <? length (urMaterials r))%nat then nth_error (urMaterials x) n else None)
               (fun m => if (n <? length (urMaterials r))%nat then Some (pmRef m) else None)) with (ms := ms) (s := s) (s' := s') (x := r) as (r1 & F1 & C1 & G1); auto.
    - intros m x e' P I _ H. destruct (modify_rend m x e' P H) as (x' & -> & L & G). exists x'. split; [reflexivity|]. split; [congruence|]. destruct (n <? length (urMaterials r))%nat eqn:B; [|now destruct (String.eqb _ _)].
      apply Nat.ltb_lt in B. apply G. congruence.
    - exists r1. split; [exact F1|]. split; [exact C1|]. intro B. apply Nat.ltb_lt in B. rewrite B in G1. exact G1. }
  destruct (H 0%nat (or_intror eq_refl)) as (r1 & F1 & L1 & _). exists r1. split; [exact F1|]. split; [exact L1|]. intros n N. destruct (H n (or_introl N)) as (r2 & F2 & _ & G). rewrite F1 in F2. injection F2 as <-. now apply G.
Qed.
End P.
