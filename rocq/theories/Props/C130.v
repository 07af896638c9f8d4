(** C130: material morphs of PMX models change the colours of the MQO document as the model says. *)
From Coq Require Import String List ZArith Bool Arith Lia Reals Lra.
From Verif.Model Require Import Num NumR Vec Mqo MqoDoc MmdMaterials.
From Verif Require Import Spec.MmdMaterialsSpec.
From Verif.Proofs Require Import MmdMaterials.
Import ListNotations.
Local Open Scope nat_scope.
Local Open Scope list_scope.

(** A model whose materials have different names, none of them like the name of a morph material, whose morph names have no
    colon and whose morph entries are about single materials of the model.  When a morph (the only one of its name, with
    at most one entry per material) is applied to its MQO document with value [v], each material it is about gets the colour
    the PMX model means, and nothing else of it changes; the other materials stay; nothing crashes.
    Full claim: without these conditions, and for all the parts of a material. *)
Theorem C130_colors_partial (ambient : R) texs (xs : list (mmat R)) l1 M l2 v ms :
  mqo_materials ambient texs xs (l1 ++ M :: l2) = Some ms ->
  NoDup (map xmName xs) -> (forall x s, In x xs -> xmName x <> ("$MORPH:" ++ s)%string) ->
  (forall mo o, In mo (l1 ++ M :: l2) -> In o (moMats mo) -> (0 <= moTarget o < Z.of_nat (length xs))%Z) ->
  (forall mo, In mo (l1 ++ M :: l2) -> no_colon (moName mo)) ->
  (forall mo, In mo (l1 ++ l2) -> moName mo <> moName M) ->
  NoDup (map moTarget (moMats M)) ->
  exists ms', apply_material_morph ms (moName M) v = Some ms' /\ length ms' = length ms /\
    (forall k x, nth_error xs k = Some x -> exists m, nth_error ms k = Some m /\ same_look texs x m /\
       (forall o, In o (moMats M) -> about o k -> nth_error ms' k = Some (set_mat_color m (color_at o v (xmColor x)))) /\
       ((forall o, In o (moMats M) -> ~ about o k) -> nth_error ms' k = Some m)) /\
    (forall k, length xs <= k -> nth_error ms' k = nth_error ms k).
Proof. exact (morph_colors ambient texs xs l1 M l2 v ms). Qed.
Print Assumptions C130_colors_partial.

Definition z3 {T} {N : Num T} : vec3 T := mkV3 nzero nzero nzero.
Definition z4 {T} {N : Num T} : vec4 T := mkV4 nzero nzero nzero nzero.
Definition o4 {T} {N : Num T} : vec4 T := mkV4 none none none none.
(** A white material. *)
Definition white {T} {N : Num T} (name : string) : mmat T :=
  mkMMat name o4 z3 none z3 0 z4 nzero (-1) (-1) 0 0 (-1) 3.

(** The conditions can be met: two materials and two morphs. *)
Example C130_example :
  let M := mkMMs "dark" [mkMM 1 0 (mkV4 (1/2) (1/2) (1/2) 1)%R 0%R; mkMM 0 1 (mkV4 (-1) 0 0 0)%R 0%R] in
  let L := mkMMs "light" [mkMM 0 1 (mkV4 1 1 1 0)%R 0%R] in
  exists ms ms' m0 m1, mqo_materials 1%R [] [white "a"; white "b"] [L; M] = Some ms /\ length ms = 5 /\
    apply_material_morph ms "dark" (1/2)%R = Some ms' /\ nth_error ms' 0 = Some m0 /\ nth_error ms' 1 = Some m1 /\
    mtColor m0 = mkV4 (1/2)%R 1%R 1%R 1%R /\ mtColor m1 = mkV4 (3/4)%R (3/4)%R (3/4)%R 1%R.
Proof.
  cbv zeta.
  set (M := mkMMs "dark" [mkMM 1 0 (mkV4 (1/2) (1/2) (1/2) 1)%R 0%R; mkMM 0 1 (mkV4 (-1) 0 0 0)%R 0%R]).
  set (L := mkMMs "light" [mkMM 0 1 (mkV4 1 1 1 0)%R 0%R]).
  assert (E : exists ms, mqo_materials 1%R [] [white "a"; white "b"] ([L] ++ M :: []) = Some ms /\ length ms = 5).
  { eexists. split; reflexivity. }
  destruct E as [ms [E Len]].
  destruct (C130_colors_partial 1%R [] [white "a"; white "b"] [L] M [] (1/2)%R ms E) as [ms' [A [_ [B _]]]].
  - repeat constructor; cbn; intuition discriminate.
  - intros x s [<-|[<-|[]]]; discriminate.
  - intros mo o [<-|[<-|[]]] I; cbn in I; intuition; subst; cbn; lia.
  - intros mo [<-|[<-|[]]]; cbn; repeat split; discriminate.
  - intros mo [<-|[]]; discriminate.
  - repeat constructor; cbn; intuition discriminate.
  - destruct (B 0 _ eq_refl) as [m0 [_ [_ [B0 _]]]]. destruct (B 1 _ eq_refl) as [m1 [_ [_ [B1 _]]]].
    specialize (B0 _ (or_intror (or_introl eq_refl)) (or_introl eq_refl)).
    specialize (B1 _ (or_introl eq_refl) (or_introl eq_refl)).
    exists ms, ms', (set_mat_color m0 (color_at (mkMM 0 1 (mkV4 (-1) 0 0 0)%R 0%R) (1/2) (xmColor (white "a")))),
      (set_mat_color m1 (color_at (mkMM 1 0 (mkV4 (1/2) (1/2) (1/2) 1)%R 0%R) (1/2) (xmColor (white "b")))).
    repeat (split; [assumption|]).
    unfold set_mat_color, color_at, at_value, white, o4. cbn [mtColor xmColor moFlags moDiffuse qx qy qz qw none RNum Z.odd].
    split; match goal with |- mkV4 ?a ?b ?c ?d = mkV4 ?a' ?b' ?c' ?d' =>
      replace a with a' by field; replace b with b' by field; replace c with c' by field; replace d with d' by field end; reflexivity.
Qed.

(** Entries with target -1 are about all materials; the conversion drops them. *)
Theorem C130_all_refuted :
  exists (xs : list (mmat R)) M o ms ms' m, mqo_materials 1%R [] xs [M] = Some ms /\ moMats M = [o] /\ about o 0 /\
    apply_material_morph ms (moName M) 1%R = Some ms' /\ nth_error ms' 0 = Some m /\
    mtColor m <> color_at o 1%R (mtColor m) /\ ms' = ms.
Proof.
  exists [white "a"], (mkMMs "dark" [mkMM (-1) 0 z4 1%R]), (mkMM (-1) 0 z4 1%R).
  eexists; eexists; eexists. split; [reflexivity|]. split; [reflexivity|]. split; [right; reflexivity|].
  split; [reflexivity|]. split; [reflexivity|]. split; [|reflexivity].
  unfold color_at, at_value, z4. cbn [mtColor moFlags moDiffuse qx qy qz qw Z.odd xmColor white o4 none nzero RNum].
  intro C. injection C as C. lra.
Qed.
Print Assumptions C130_all_refuted.

(** Only colours are morphed: the shininess the morph material gets is never used. *)
Theorem C130_power_refuted :
  exists (xs : list (mmat R)) M o ms ms' m, mqo_materials 1%R [] xs [M] = Some ms /\ moMats M = [o] /\ about o 0 /\
    apply_material_morph ms (moName M) 1%R = Some ms' /\ nth_error ms' 0 = Some m /\
    exists x, nth_error xs 0 = Some x /\
    mtPower m <> at_value (Z.odd (moFlags o)) 1%R (xmSpecularity x) (moSpecularity o).
Proof.
  exists [white "a"], (mkMMs "dark" [mkMM 0 0 o4 2%R]), (mkMM 0 0 o4 2%R).
  eexists; eexists; eexists. split; [reflexivity|]. split; [reflexivity|]. split; [left; reflexivity|].
  split; [reflexivity|]. split; [reflexivity|]. eexists. split; [reflexivity|].
  unfold at_value. cbn [mtPower set_mat_color moFlags moSpecularity Z.odd xmSpecularity white none RNum]. lra.
Qed.
Print Assumptions C130_power_refuted.

(** PMX models may have two materials of one name: a morph of the first changes the second. *)
Theorem C130_name_refuted :
  exists (xs : list (mmat Z)) M ms ms' m, mqo_materials 1%Z [] xs [M] = Some ms /\
    map moTarget (moMats M) = [0%Z] /\ apply_material_morph ms (moName M) 1%Z = Some ms' /\
    nth_error ms' 0 = nth_error ms 0 /\ nth_error ms' 1 = Some m /\ nth_error ms 1 <> Some m.
Proof.
  exists [white "a"; white "a"], (mkMMs "dark" [mkMM 0 0 z4 1%Z]).
  eexists; eexists; eexists. split; [reflexivity|]. split; [reflexivity|]. split; [reflexivity|].
  split; [reflexivity|]. split; [reflexivity|]. discriminate.
Qed.
Print Assumptions C130_name_refuted.

(** A morph name with a colon: applying morph "a" crashes because of morph "a:b". *)
Theorem C130_colon_refuted :
  exists (xs : list (mmat Z)) M M' ms, mqo_materials 1%Z [] xs [M; M'] = Some ms /\
    NoDup (map xmName xs) /\ moName M <> moName M' /\ (forall o, In o (moMats M ++ moMats M') -> moTarget o = 0%Z) /\
    length xs = 1 /\ apply_material_morph ms (moName M) 1%Z = None.
Proof.
  exists [white "skin"], (mkMMs "a" [mkMM 0 0 z4 1%Z]), (mkMMs "a:b" [mkMM 0 0 z4 1%Z]).
  eexists. split; [reflexivity|]. split; [repeat constructor; intros []|]. split; [discriminate|].
  split; [intros o [<-|[<-|[]]]; reflexivity|]. split; reflexivity.
Qed.
Print Assumptions C130_colon_refuted.

(** For every entry of a material morph the document has a copy of the material: its name says the morph and the material, its power is that of the entry, all but the colour and the light is that of the material. *)
Theorem C130_copies : forall (T : Type) (N : Num T) (ambient : T) texs (xs : list (mmat T)) mos ms mo o k m,
  mqo_materials ambient texs xs mos = Some ms -> In mo mos -> In o (moMats mo) -> moTarget o = Z.of_nat k -> (k < length xs)%nat -> nth_error ms k = Some m ->
  exists c, In c ms /\ mtName c = ("$MORPH:" ++ moName mo ++ ":" ++ mtName m)%string /\ mtPower c = moSpecularity o /\
    mtDiffuse c = none /\ mtAmbient c = ambient /\ mtSpecular c = nzero /\
    mtEmission c = mtEmission m /\ mtTexture c = mtTexture m /\ mtBump c = mtBump m /\ mtAlpha c = mtAlpha m /\ mtDouble c = mtDouble m /\ mtShader c = mtShader m /\ mtEx2 c = mtEx2 m.
Proof. exact (fun T N => @morph_copies T N). Qed.
Print Assumptions C130_copies.
Example C130_copies_example : option_map (map (fun m : material Z => (mtName m, mtPower m))) (mqo_materials 1%Z [] [white "a"; white "b"] [mkMMs "dark" [mkMM 1 0 z4 7%Z]]) =
  Some [("a"%string, 1%Z); ("b"%string, 1%Z); ("$MORPH:dark:b"%string, 7%Z)].
Proof. vm_compute. reflexivity. Qed.
