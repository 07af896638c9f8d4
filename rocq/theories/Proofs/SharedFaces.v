(** The loop of [ConvertObject] on two objects with the same triangles gives the same vertices. *)
From Coq Require Import String List ZArith Bool Lia.
From Verif.Model Require Import Num Vec Matrix Triangulate Mqo MqoDoc Mmd2Mqo Normals Mqo2Mmd Gltf Mqo2Gltf Mqo2GltfShared.
From Verif Require Import Proofs.GltfDoc.
Import ListNotations.
Local Open Scope Z_scope.

Section Faces.
Context {T : Type} {N : Num T} {X : Type}.
Variables (eps : T) (f0 f1 : X -> vec3 T) (sk0 sk1 : bool) (mmap : Z -> option Z) (P : Z -> Z -> Prop).
Hypothesis bij : forall a b a' b', P a b -> P a' b' -> (a = a' <-> b = b').

Definition same_prims (l0 l1 : list (Z * list Z)) : Prop := Forall2 (fun p0 p1 => snd p0 = snd p1 /\ P (fst p0) (fst p1)) l0 l1.
Definition same_state (a b : cstate T) : Prop :=
  (exists xs, csVerts a = map f0 xs /\ csVerts b = map f1 xs) /\ csSrc a = csSrc b /\ csUV a = csUV b /\ csMap a = csMap b /\
  csUseUV a = csUseUV b /\ same_prims (csPrims a) (csPrims b).

Lemma same_length a b : same_state a b -> length (csVerts a) = length (csVerts b).
Proof. intros ((xs & A & B) & _). rewrite A, B, !map_length. reflexivity. Qed.

Lemma same_assign a b a' b' x id u n0 n1 : same_state a b -> assign x id u n0 a = Some a' -> assign x id u n1 b = Some b' -> same_state a' b'.
Proof.
  intros (V & S1 & S2 & S3 & S4 & S5) A B. unfold assign in A, B. rewrite <- S2 in B.
  destruct (zidx (csUV a) id); [|discriminate]. destruct (zidx (csNormals a) id); [|discriminate]. destruct n0; [|discriminate].
  destruct (zidx (csNormals b) id); [|discriminate]. destruct n1; [|discriminate]. injection A as <-. injection B as <-.
  unfold same_state. cbn [csVerts csSrc csUV csMap csUseUV csPrims]. rewrite S1, S3, S4. auto 10.
Qed.

Lemma same_new a b a' b' x : same_state a b -> new_vertex sk0 x a = Some a' -> new_vertex sk1 x b = Some b' -> same_state a' b'.
Proof.
  intros ((xs & V0 & V1) & S1 & S2 & S3 & S4 & S5) A B. unfold new_vertex in A, B. rewrite V0, zidx_map in A. rewrite V1, zidx_map in B.
  destruct (zidx xs x) as [c|]; [|discriminate]. cbn [option_map] in A, B.
  destruct (if sk0 then _ else _); [|discriminate]. destruct (if sk1 then _ else _); [|discriminate]. injection A as <-. injection B as <-.
  unfold same_state. cbn [csVerts csSrc csUV csMap csUseUV csPrims]. rewrite S1, S2, S3, S4.
  split; [|auto 10]. exists (xs ++ [c]). rewrite !map_app. auto.
Qed.

Lemma same_uv_corner a b g0 g1 i x i0 i1 a' b' : same_state a b -> fUVs g1 = fUVs g0 ->
  uv_corner eps sk0 g0 i x a = Some (i0, a') -> uv_corner eps sk1 g1 i x b = Some (i1, b') -> i0 = i1 /\ same_state a' b'.
Proof.
  intros S0 EU A B. pose proof (same_length _ _ S0) as L. pose proof S0 as (_ & _ & S2 & S3 & _). unfold uv_corner in A, B. rewrite EU in B.
  destruct (nth_error (fNormals g0) i) as [n0|]; [|discriminate]. destruct (nth_error (fNormals g1) i) as [n1|]; [|discriminate].
  destruct (nth_error (fUVs g0) i) as [u|]; [|discriminate]. rewrite <- S2, <- S3 in B.
  destruct (vm_get (csMap a) x) as [|v l].
  - destruct (assign x x u n0 a) as [r|] eqn:E0; [|discriminate]. destruct (assign x x u n1 b) as [r1|] eqn:E1; [|discriminate].
    injection A as <- <-. injection B as <- <-. split; [reflexivity|exact (same_assign _ _ _ _ _ _ _ _ _ S0 E0 E1)].
  - destruct (find_uv eps (csUV a) u (v :: l) None) as [[w|]|]; [| |discriminate].
    + injection A as <- <-. injection B as <- <-. auto.
    + destruct (new_vertex sk0 x a) as [a1|] eqn:E0; [|discriminate]. destruct (new_vertex sk1 x b) as [b1|] eqn:E1; [|discriminate].
      rewrite <- L in B. pose proof (same_new _ _ _ _ _ S0 E0 E1) as S1.
      destruct (assign _ _ u n0 a1) as [r|] eqn:E2; [|discriminate]. destruct (assign _ _ u n1 b1) as [r1|] eqn:E3; [|discriminate].
      injection A as <- <-. injection B as <- <-. split; [reflexivity|exact (same_assign _ _ _ _ _ _ _ _ _ S1 E2 E3)].
Qed.

Lemma same_plain_corner a b (g0 g1 : face T) i x i0 i1 a' b' : same_state a b ->
  plain_corner g0 i x a = Some (i0, a') -> plain_corner g1 i x b = Some (i1, b') -> i0 = i1 /\ same_state a' b'.
Proof.
  intros (V & S1 & S2 & S3 & S4 & S5) A B. unfold plain_corner in A, B.
  destruct (nth_error (fNormals g0) i) as [[n0|]|]; [|discriminate|discriminate]. destruct (nth_error (fNormals g1) i) as [[n1|]|]; [|discriminate|discriminate].
  destruct (zidx (csNormals a) x); [|discriminate]. destruct (zidx (csNormals b) x); [|discriminate].
  injection A as <- <-. injection B as <- <-. split; [reflexivity|]. unfold same_state. cbn [csVerts csSrc csUV csMap csUseUV csPrims]. auto 10.
Qed.

Lemma same_corners act0 act1 : (forall a b i x i0 i1 a' b', same_state a b -> act0 i x a = Some (i0, a') -> act1 i x b = Some (i1, b') -> i0 = i1 /\ same_state a' b') ->
  forall l i a b l0 l1 a' b', same_state a b -> corners act0 i l a = Some (l0, a') -> corners act1 i l b = Some (l1, b') -> l0 = l1 /\ same_state a' b'.
Proof.
  intros H. induction l as [|x l IH]; intros i a b l0 l1 a' b' S0 A B; cbn [corners] in A, B.
  - injection A as <- <-. injection B as <- <-. auto.
  - destruct (act0 i x a) as [[i0 a1]|] eqn:E0; [|discriminate]. destruct (act1 i x b) as [[i1 b1]|] eqn:E1; [|discriminate].
    destruct (H _ _ _ _ _ _ _ _ S0 E0 E1) as (<- & S1).
    destruct (corners act0 (S i) l a1) as [[r0 a2]|] eqn:E2; [|discriminate]. destruct (corners act1 (S i) l b1) as [[r1 b2]|] eqn:E3; [|discriminate].
    injection A as <- <-. injection B as <- <-. destruct (IH _ _ _ _ _ _ _ S1 E2 E3) as (<- & S2). auto.
Qed.

Lemma same_add l0 l1 m0 m1 t : same_prims l0 l1 -> P m0 m1 -> same_prims (add_triangle l0 m0 t) (add_triangle l1 m1 t).
Proof.
  intros F Hm. induction F as [|[a x] [b y] l0 l1 (E & Hp) F IH]; cbn [add_triangle]; [repeat constructor; exact Hm|].
  cbn [fst snd] in E, Hp. subst y. destruct (Z.eqb_spec a m0) as [->|Na].
  - assert (b = m1) as -> by (apply (bij _ _ _ _ Hp Hm); reflexivity). rewrite Z.eqb_refl. constructor; [cbn; auto|exact F].
  - destruct (Z.eqb_spec b m1) as [->|Nb]; [exfalso; apply Na; apply (bij _ _ _ _ Hp Hm); reflexivity|]. constructor; [cbn; auto|exact IH].
Qed.

Definition same_face (g0 g1 : face T) : Prop :=
  fVerts g1 = fVerts g0 /\ fUVs g1 = fUVs g0 /\ exists m0 m1, mmap (fMaterial g0) = Some m0 /\ mmap (fMaterial g1) = Some m1 /\ P m0 m1.

Lemma same_conv_face a b g0 g1 a' b' : same_state a b -> same_face g0 g1 ->
  conv_face eps mmap sk0 g0 a = Some a' -> conv_face eps mmap sk1 g1 b = Some b' -> same_state a' b'.
Proof.
  intros S0 (E1 & E2 & m0 & m1 & M0 & M1 & Hp) A B. unfold conv_face in A, B. rewrite E1, M1, E2 in B. rewrite M0 in A.
  destruct (length (fVerts g0) <? 3)%nat; [injection A as <-; injection B as <-; exact S0|].
  set (ra := match fUVs g0 with [] => corners (plain_corner g0) 0 (fVerts g0) a | _ => corners (uv_corner eps sk0 g0) 0 (fVerts g0) (set_use_uv a true) end) in *.
  set (rb := match fUVs g0 with [] => corners (plain_corner g1) 0 (fVerts g0) b | _ => corners (uv_corner eps sk1 g1) 0 (fVerts g0) (set_use_uv b true) end) in *.
  destruct ra as [[l0 a1]|] eqn:Ra; [|discriminate]. destruct rb as [[l1 b1]|] eqn:Rb; [|discriminate].
  assert (l0 = l1 /\ same_state a1 b1) as (<- & S1).
  { subst ra rb. destruct (fUVs g0) as [|u us] eqn:EU.
    - refine (same_corners _ _ _ _ _ _ _ _ _ _ _ S0 Ra Rb). intros. eapply same_plain_corner; eassumption.
    - refine (same_corners _ _ _ _ _ _ _ _ _ _ _ _ Ra Rb).
      + intros a2 b2 i x i0 i1 a3 b3 Q1 Q2 Q3. refine (same_uv_corner _ _ _ _ _ _ _ _ _ _ Q1 _ Q2 Q3). congruence.
      + destruct S0 as (V & S1 & S2 & S3 & S4 & S5). unfold same_state, set_use_uv. cbn [csVerts csSrc csUV csMap csUseUV csPrims]. auto 10. }
  destruct l0 as [|p [|q [|r l0]]]; try discriminate. injection A as <-. injection B as <-.
  destruct S1 as (V & S1 & S2 & S3 & S4 & S5). unfold same_state, set_prims. cbn [csVerts csSrc csUV csMap csUseUV csPrims].
  repeat (split; [assumption|]). apply same_add; assumption.
Qed.

Lemma same_conv_faces g0 g1 : Forall2 same_face g0 g1 -> forall a b a' b', same_state a b ->
  conv_gfaces eps mmap sk0 g0 a = Some a' -> conv_gfaces eps mmap sk1 g1 b = Some b' -> same_state a' b'.
Proof.
  induction 1 as [|x y g0 g1 H F IH]; intros a b a' b' S0 A B; cbn [conv_gfaces] in A, B; [injection A as <-; injection B as <-; exact S0|].
  destruct (conv_face eps mmap sk0 x a) as [a1|] eqn:E0; [|discriminate]. destruct (conv_face eps mmap sk1 y b) as [b1|] eqn:E1; [|discriminate].
  exact (IH _ _ _ _ (same_conv_face _ _ _ _ _ _ S0 H E0 E1) A B).
Qed.
End Faces.
