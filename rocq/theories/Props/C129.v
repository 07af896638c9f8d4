(** C129: materials keep their look between PMX models and MQO documents. *)
From Coq Require Import String List ZArith Bool Arith Lia.
From Verif.Model Require Import Num Vec Mqo MqoDoc MmdMaterials.
From Verif Require Import Spec.MmdMaterialsSpec.
From Verif.Proofs Require Import MmdMaterials.
Import ListNotations.
Local Open Scope Z_scope.
Local Open Scope list_scope.

(** PMX to MQO: if all texture numbers are of the texture list, each material becomes one with the same name, colour,
    shininess, texture file and sides, and the edge switch says whether the edge has a size. *)
Theorem C129_read (T : Type) (N : Num T) (ambient : T) texs (xs : list (mmat T)) : textures_ok texs xs ->
  exists ms, from_mmats ambient texs xs = Some ms /\
    Forall2 (fun x m => same_look texs x m /\ same_sides x m /\
      exists e, mtEx2 m = Some e /\ exParams e = [("Edge"%string, PBool (nltb nzero (xmEdge x)))]) xs ms.
Proof. exact (from_mmats_look ambient texs xs). Qed.
Print Assumptions C129_read.

(** Otherwise the conversion ends with an index out of range. *)
Theorem C129_crash (T : Type) (N : Num T) (ambient : T) texs (xs : list (mmat T)) :
  from_mmats ambient texs xs = None <-> ~ textures_ok texs xs.
Proof. exact (from_mmats_none ambient texs xs). Qed.
Print Assumptions C129_crash.
Theorem C129_crash_refuted :
  ~ forall (texs : list string) (xs : list (mmat Z)), exists ms, from_mmats 14 texs xs = Some ms.
Proof.
  intro H. set (z3 := mkV3 0 0 0). set (z4 := mkV4 0 0 0 0).
  destruct (H ["skin.png"%string] [mkMMat "body" z4 z3 5 z3 0 z4 0 1 (-1) 0 0 (-1) 3]) as [ms E]. discriminate.
Qed.
Print Assumptions C129_crash_refuted.

(** MQO to PMX: name, colour, shininess and texture file are kept, each texture number is of the new texture list, and the
    vertex count is three times the number of the faces. *)
Theorem C129_written_partial (T : Type) (N : Num T) (ms : list (material T * Z)) :
  let (xs, all) := to_mmats ms [] in
  Forall2 (fun mn x => same_look all x (fst mn) /\ xmCount x = 3 * snd mn /\ xmTexture x < Z.of_nat (length all)) ms xs.
Proof. exact (to_mmats_look ms []). Qed.
Print Assumptions C129_written_partial.

(** Materials that show both sides show one in the PMX model. *)
Theorem C129_sides_refuted :
  ~ forall (ms : list (material Z * Z)), Forall2 (fun mn x => same_sides x (fst mn)) ms (fst (to_mmats ms [])).
Proof.
  intro H.
  specialize (H [(mkMat "skirt" 0 (mkV4 1 1 1 1) 1 0 0 0 5 "" "" "" None true 0 None, 2)]).
  inversion H as [|? ? ? ? A _]; subst. discriminate A.
Qed.
Print Assumptions C129_sides_refuted.

(** To PMX and back to MQO: the conversion never fails, name, colour, shininess and texture are the same; no material is
    double sided any more. *)
Theorem C129_back_partial (T : Type) (N : Num T) (ambient : T) (ms : list (material T * Z)) :
  exists ms', from_mmats ambient (snd (to_mmats ms [])) (fst (to_mmats ms [])) = Some ms' /\
  Forall2 (fun mn m' => mtName m' = mtName (fst mn) /\ mtColor m' = mtColor (fst mn) /\ mtPower m' = mtPower (fst mn) /\
     mtTexture m' = mtTexture (fst mn) /\ mtDouble m' = false) ms ms'.
Proof. exact (back_mqo ambient ms). Qed.
Print Assumptions C129_back_partial.

(** To MQO and back to PMX: the materials look alike, with whatever face counts. *)
Theorem C129_pmx_back_partial (T : Type) (N : Num T) (ambient : T) texs (xs : list (mmat T)) ms cs :
  from_mmats ambient texs xs = Some ms -> length cs = length ms ->
  let (xs', texs') := to_mmats (combine ms cs) [] in Forall2 (fun x x' => alike texs x texs' x') xs xs'.
Proof. exact (back_pmx ambient texs xs ms cs). Qed.
Print Assumptions C129_pmx_back_partial.

(** But the edge is lost on the way back, although the MQO material says that there is one; so are the sides, the specular
    and ambient colours and the toon texture. *)
Theorem C129_edge_refuted :
  ~ forall texs (xs : list (mmat Z)) ms, from_mmats 14 texs xs = Some ms ->
      Forall2 (fun x x' => (0 < xmEdge x <-> 0 < xmEdge x') /\ Z.odd (xmFlags x) = Z.odd (xmFlags x') /\
                           xmSpecular x = xmSpecular x' /\ xmAmbient x = xmAmbient x' /\ xmToon x = xmToon x')
        xs (fst (to_mmats (combine ms (map (fun x => xmCount x / 3) xs)) [])).
Proof.
  intro H. set (z3 := mkV3 0 0 0). set (z4 := mkV4 0 0 0 0).
  specialize (H [] [mkMMat "body" z4 z3 5 z3 0 z4 1 (-1) (-1) 0 0 (-1) 3] _ eq_refl).
  inversion H as [|? ? ? ? A _]; subst. destruct A as [[A _] _]. cbn in A. specialize (A eq_refl). discriminate.
Qed.
Print Assumptions C129_edge_refuted.

(** Two materials, one with a texture, both ways. *)
Example C129_example :
  let z3 := mkV3 0 0 0 in let z4 := mkV4 0 0 0 0 in
  let a := mkMMat "skin" (mkV4 1 2 3 4) z3 5 z3 1 z4 1 1 (-1) 0 0 (-1) 6 in
  let b := mkMMat "hair" (mkV4 5 6 7 8) z3 9 z3 0 z4 0 (-1) (-1) 0 0 (-1) 3 in
  let texs := ["x.png"; "skin.png"]%string in
  textures_ok texs [a; b] /\
  exists p q, from_mmats 14 texs [a; b] = Some [p; q] /\ mtDouble p = true /\ mtTexture p = "skin.png"%string /\ mtTexture q = ""%string /\
    to_mmats [(p, 2); (q, 1)] [] =
      ([mkMMat "skin" (mkV4 1 2 3 4) z3 5 z3 0 z4 0 0 0 0 0 (-1) 6; mkMMat "hair" (mkV4 5 6 7 8) z3 9 z3 0 z4 0 (-1) 0 0 0 (-1) 3],
       ["skin.png"%string]).
Proof.
  cbv zeta. split.
  - intros x [<-|[<-|[]]]; cbn; lia.
  - eexists; eexists. split; [vm_compute; reflexivity|]. repeat split.
Qed.

(** The light of the material is the same for all. *)
Theorem C129_light : forall (T : Type) (N : Num T) (ambient : T) texs (x : mmat T) m, from_mmat ambient texs x = Some m ->
  mtDiffuse m = none /\ mtAmbient m = ambient /\ mtSpecular m = nzero /\ mtEmission m = nzero.
Proof. exact (fun T N => @from_mmat_light T N). Qed.
Print Assumptions C129_light.
