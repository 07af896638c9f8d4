(** The built-in meshes of Unity are closed. *)
From Coq Require Import List ZArith Bool Lia.
From Verif.Model Require Import Num Vec Matrix Unity.
From Verif.Spec Require Import UnitySpec.
Import ListNotations.
Local Open Scope list_scope.
Local Open Scope Z_scope.

(** *** Lists *)
Lemma upto_in n j : In j (upto n) <-> 0 <= j < n.
Proof.
  unfold upto. rewrite in_map_iff. split.
  - intros (k & <- & H). apply in_seq in H. lia.
  - intros H. exists (Z.to_nat j). split; [lia|]. apply in_seq. lia.
Qed.
Lemma range_in a b j : In j (range a b) <-> a <= j < b.
Proof.
  unfold range. rewrite in_map_iff. split.
  - intros (k & <- & H). apply upto_in in H. lia.
  - intros H. exists (j - a). split; [lia|]. apply upto_in. lia.
Qed.
Lemma nodup_map {A B} (f : A -> B) l : (forall x y, In x l -> In y l -> f x = f y -> x = y) -> NoDup l -> NoDup (map f l).
Proof.
  induction l as [|x r IH]; intros HI ND; cbn [map]; [constructor|]. inversion ND as [|? ? N1 N2]; subst. constructor.
  - intros H. apply in_map_iff in H as (y & E & Hy). assert (y = x) by (apply HI; [right; exact Hy|left; reflexivity|exact E]). subst y. contradiction.
  - apply IH; [|exact N2]. intros y z Hy Hz. apply HI; right; assumption.
Qed.
Lemma nodup_flat_map {A B} (g : A -> list B) l : (forall x, In x l -> NoDup (g x)) -> (forall x y z, In x l -> In y l -> In z (g x) -> In z (g y) -> x = y) -> NoDup l -> NoDup (flat_map g l).
Proof.
  induction l as [|x r IH]; intros H1 H2 ND; cbn [flat_map]; [constructor|]. inversion ND as [|? ? N1 N2]; subst.
  assert (R : NoDup (flat_map g r)) by (apply IH; [intros y Hy; apply H1; right; exact Hy|intros y z w Hy Hz; apply H2; right; assumption|exact N2]).
  assert (D : forall z, In z (g x) -> ~ In z (flat_map g r)).
  { intros z Hz Hr. apply in_flat_map in Hr as (y & Hy & Hzy). assert (x = y) by (apply (H2 x y z); [left; reflexivity|right; exact Hy|exact Hz|exact Hzy]). subst y. contradiction. }
  specialize (H1 x (or_introl eq_refl)). clear - R D H1. revert D H1. generalize (g x) as q. induction q as [|z l IH]; intros D H1; [exact R|]. inversion H1 as [|? ? N1 N2]; subst. cbn [app]. constructor.
  - intros H. apply in_app_or in H as [H|H]; [contradiction|]. apply (D z (or_introl eq_refl) H).
  - apply IH; [intros w Hw; apply D; right; exact Hw|exact N2].
Qed.
Lemma upto_nodup n : NoDup (upto n).
Proof. unfold upto. apply nodup_map; [intros x y _ _; lia|apply seq_NoDup]. Qed.
Lemma range_nodup a b : NoDup (range a b).
Proof. unfold range. apply nodup_map; [intros x y _ _; lia|apply upto_nodup]. Qed.
Lemma upto_length n : length (upto n) = Z.to_nat n.
Proof. unfold upto. rewrite map_length, seq_length. reflexivity. Qed.
Lemma range_length a b : length (range a b) = Z.to_nat (b - a).
Proof. unfold range. rewrite map_length. apply upto_length. Qed.
Lemma range_cons a b : a < b -> range a b = a :: range (a + 1) b.
Proof.
  intros H. unfold range, upto. replace (Z.to_nat (b - a)) with (S (Z.to_nat (b - (a + 1)))) by lia. cbn [seq map]. f_equal; [lia|]. rewrite <- seq_shift, !map_map. apply map_ext. intros k. lia.
Qed.
Lemma range_nil a b : b <= a -> range a b = [].
Proof. intros H. unfold range, upto. replace (Z.to_nat (b - a)) with 0%nat by lia. reflexivity. Qed.
Lemma range_snoc a b : a <= b -> range a (b + 1) = range a b ++ [b].
Proof.
  intros H. remember (Z.to_nat (b - a)) as k eqn:Ek. revert a H Ek. induction k as [|k IH]; intros a H Ek.
  - assert (a = b) by lia. subst a. rewrite range_cons, !range_nil by lia. reflexivity.
  - rewrite (range_cons a (b + 1)), (range_cons a b) by lia. cbn [app]. f_equal. apply IH; lia.
Qed.
Lemma mod_next s j : 0 < s -> 0 <= j < s -> (j + 1 = s /\ (j + 1) mod s = 0) \/ (j + 1 < s /\ (j + 1) mod s = j + 1).
Proof. intros Hs Hj. destruct (Z.eq_dec (j + 1) s) as [E|E]; [left; split; [exact E|rewrite E; apply Z_mod_same_full]|right; split; [lia|apply Z.mod_small; lia]]. Qed.

(** *** The sphere *)
Section Sphere.
Context (sh sv : Z) (Hsh : 3 <= sh) (Hsv : 2 <= sv).

(** Ring [i], position [j]. *)
Definition vert (i j : Z) : Z := if i =? 0 then 0 else if i =? sv then (sv - 1) * sh + 1 else (i - 1) * sh + j + 1.
Definition next (j : Z) : Z := (j + 1) mod sh.
Lemma next_spec j : 0 <= j < sh -> 0 <= next j < sh /\ ((j + 1 = sh /\ next j = 0) \/ (j + 1 < sh /\ next j = j + 1)).
Proof. intros Hj. unfold next. destruct (mod_next sh j ltac:(lia) Hj) as [(A & B)|(A & B)]; rewrite B; lia. Qed.
Lemma vert_inj i j i' j' : 0 <= i <= sv -> 0 <= i' <= sv -> 0 <= j < sh -> 0 <= j' < sh -> vert i j = vert i' j' -> i = i' /\ (0 < i < sv -> j = j').
Proof.
  intros Hi Hi' Hj Hj'. unfold vert. destruct (Z.eqb_spec i 0), (Z.eqb_spec i' 0), (Z.eqb_spec i sv), (Z.eqb_spec i' sv); intros E; try lia; try (exfalso; nia).
  assert (i = i') by nia. subst i'. split; [reflexivity|]. intros _. lia.
Qed.
Lemma vert_range i j : 0 <= i <= sv -> 0 <= j < sh -> 0 <= vert i j < (sv - 1) * sh + 2.
Proof. intros Hi Hj. unfold vert. destruct (Z.eqb_spec i 0), (Z.eqb_spec i sv); nia. Qed.

Definition sface (i j : Z) : list Z :=
  vert i j :: (if i + 1 =? sv then [vert sv 0] else if i =? 0 then [vert (i + 1) j] else [vert (i + 1) j]) ++
  (if i + 1 =? sv then [] else [vert (i + 1) (next j)]) ++ (if i =? 0 then [] else [vert i (next j)]).
Lemma sphere_faces_eq : sphere_faces sh sv 0 sv 0 = flat_map (fun i => map (sface i) (upto sh)) (range 0 sv).
Proof.
  unfold sphere_faces. 
  assert (X : forall (g h : Z -> list (list Z)) l, (forall i, In i l -> g i = h i) -> flat_map g l = flat_map h l).
  { intros g h l H. induction l as [|x r IH]; [reflexivity|]. cbn [flat_map]. rewrite (H x (or_introl eq_refl)), IH; [reflexivity|]. intros i Hi. apply H. right. exact Hi. }
  apply X. intros i Hi. apply range_in in Hi. apply map_ext_in. intros j Hj. apply upto_in in Hj. destruct (next_spec j Hj) as (N1 & _). unfold sphere_ofs, sface, vert, next. cbn [Z.ltb Z.compare Z.eqb].
  destruct (Z.eqb_spec i 0) as [->|E0].
  - destruct (Z.eqb_spec (0 + 1) sv); [lia|]. destruct (Z.eqb_spec (0 + 1) 0); [lia|]. cbn [app]. repeat f_equal; lia.
  - destruct (Z.eqb_spec i (sv - 1)) as [E1|E1].
    + destruct (Z.eqb_spec (i + 1) sv); [|lia]. destruct (Z.eqb_spec sv 0); [lia|]. rewrite Z.eqb_refl. destruct (Z.eqb_spec i sv); [lia|]. cbn [app]. repeat f_equal; subst i; lia.
    + destruct (Z.eqb_spec (i + 1) sv); [lia|]. destruct (Z.eqb_spec (i + 1) 0); [lia|]. destruct (Z.eqb_spec i sv); [lia|]. cbn [app]. repeat f_equal; lia.
Qed.

(** The edges, by kind: down, along the lower ring, up, along the upper ring. *)
Definition tag : Type := Z * Z * Z.
Definition tag_edge (t : tag) : Z * Z :=
  let '(k, i, j) := t in
  if k =? 0 then (vert i j, vert (i + 1) j)
  else if k =? 1 then (vert (i + 1) j, vert (i + 1) (next j))
  else if k =? 2 then (vert (i + 1) (next j), vert i (next j))
  else (vert i (next j), vert i j).
Definition tags_at (i j : Z) : list tag := [(0, i, j)] ++ (if i + 1 =? sv then [] else [(1, i, j)]) ++ [(2, i, j)] ++ (if i =? 0 then [] else [(3, i, j)]).
Definition tags : list tag := flat_map (fun i => flat_map (tags_at i) (upto sh)) (range 0 sv).
Lemma vert_pole i j j' : i = 0 \/ i = sv -> vert i j = vert i j'.
Proof. intros [->| ->]; unfold vert; [reflexivity|]. rewrite Z.eqb_refl. reflexivity. Qed.
Lemma sface_edges i j : 0 <= i < sv -> edges_of (sface i j) = map tag_edge (tags_at i j).
Proof.
  intros Hi. unfold sface, tags_at, tag_edge. destruct (Z.eqb_spec (i + 1) sv) as [E|E]; destruct (Z.eqb_spec i 0) as [E0|E0]; cbn [app map edges_of combine Z.eqb]; try lia.
  - rewrite E. rewrite (vert_pole sv 0 j), (vert_pole sv (next j) j) by (right; reflexivity). reflexivity.
  - subst i. rewrite (vert_pole 0 (next j) j) by (left; reflexivity). reflexivity.
  - reflexivity.
Qed.
Lemma sphere_edges : edges (sphere_faces sh sv 0 sv 0) = map tag_edge tags.
Proof.
  rewrite sphere_faces_eq. unfold edges, tags.
  assert (X : forall l, (forall i, In i l -> 0 <= i < sv) -> flat_map edges_of (flat_map (fun i => map (sface i) (upto sh)) l) = map tag_edge (flat_map (fun i => flat_map (tags_at i) (upto sh)) l)).
  { induction l as [|i l IH]; intros H; [reflexivity|]. cbn [flat_map]. rewrite flat_map_app, map_app, (IH (fun k Hk => H k (or_intror Hk))). apply (f_equal2 (@app _)); [|reflexivity]. specialize (H i (or_introl eq_refl)).
    generalize (upto sh) as q. induction q as [|j r IHj]; [reflexivity|]. cbn [map flat_map]. rewrite map_app, IHj, (sface_edges i j H). reflexivity. }
  apply X. intros i Hi. apply range_in, Hi.
Qed.
Lemma tags_in k i j : In (k, i, j) tags <-> 0 <= i < sv /\ 0 <= j < sh /\ (k = 0 \/ k = 1 /\ i + 1 < sv \/ k = 2 \/ k = 3 /\ 0 < i).
Proof.
  unfold tags. rewrite in_flat_map. split.
  - intros (i0 & Hi & H). apply range_in in Hi. apply in_flat_map in H as (j0 & Hj & H). apply upto_in in Hj. unfold tags_at in H. destruct (Z.eqb_spec (i0 + 1) sv), (Z.eqb_spec i0 0); cbn [app In] in H;
      repeat (destruct H as [H|H]; [injection H as <- <- <-; lia|]); destruct H.
  - intros (Hi & Hj & Hk). exists i. split; [apply range_in, Hi|]. apply in_flat_map. exists j. split; [apply upto_in, Hj|]. unfold tags_at.
    destruct (Z.eqb_spec (i + 1) sv), (Z.eqb_spec i 0); cbn [app In]; destruct Hk as [->|[(-> & L)|[->|(-> & L)]]]; auto; lia.
Qed.
Lemma tags_nodup : NoDup tags.
Proof.
  unfold tags. apply nodup_flat_map; [|intros x y [[k i] j] _ _ Hx Hy|apply range_nodup].
  - intros i _. apply nodup_flat_map; [|intros x y [[k i'] j] _ _ Hx Hy|apply upto_nodup].
    + intros j _. unfold tags_at. destruct (i + 1 =? sv), (i =? 0); cbn [app]; repeat constructor; cbn [In]; intuition congruence.
    + unfold tags_at in Hx, Hy. destruct (i + 1 =? sv), (i =? 0); cbn [app In] in Hx, Hy; intuition congruence.
  - apply in_flat_map in Hx as (a & _ & Hx). apply in_flat_map in Hy as (b & _ & Hy). unfold tags_at in Hx, Hy. destruct (x + 1 =? sv), (x =? 0), (y + 1 =? sv), (y =? 0); cbn [app In] in Hx, Hy; intuition congruence.
Qed.
Lemma tag_edge_inj t t' : In t tags -> In t' tags -> tag_edge t = tag_edge t' -> t = t'.
Proof.
  destruct t as [[k i] j], t' as [[k' i'] j']. intros H H'. apply tags_in in H as (Hi & Hj & Hk). apply tags_in in H' as (Hi' & Hj' & Hk').
  destruct (next_spec j Hj) as (Nj & Cj), (next_spec j' Hj') as (Nj' & Cj'). unfold tag_edge.
  destruct Hk as [->|[(-> & L)|[->|(-> & L)]]], Hk' as [->|[(-> & L')|[->|(-> & L')]]]; cbn [Z.eqb]; intros E; injection E as E1 E2;
    apply vert_inj in E1; try lia; apply vert_inj in E2; try lia; destruct E1 as (E1 & F1), E2 as (E2 & F2); try lia.
  - assert (i = i') by lia. subst i'. assert (j = j'); [|subst; reflexivity]. destruct (Z.eq_dec i 0); [apply F2; lia|apply F1; lia].
  - assert (i = i') by lia. subst i'. assert (j = j') by (apply F1; lia). subst. reflexivity.
  - assert (i = i') by lia. subst i'. assert (next j = next j') by (destruct (Z.eq_dec i 0); [apply F1; lia|apply F2; lia]). assert (j = j') by lia. subst. reflexivity.
  - assert (i = i') by lia. subst i'. assert (j = j') by (apply F2; lia). subst. reflexivity.
Qed.
Theorem sphere_closed : closed (snd (sphere sh sv)).
Proof.
  cbn [sphere snd]. unfold closed. rewrite sphere_edges. split; [apply nodup_map; [exact tag_edge_inj|exact tags_nodup]|].
  intros a b H. apply in_map_iff in H as ([[k i] j] & E & H). apply tags_in in H as (Hi & Hj & Hk). destruct (next_spec j Hj) as (Nj & Cj).
  assert (exists p, 0 <= p < sh /\ next p = j) as (p & Hp & Ep).
  { destruct (Z.eq_dec j 0) as [->|Nz]; [exists (sh - 1)|exists (j - 1)]; (split; [lia|]); [destruct (next_spec (sh - 1) ltac:(lia)); lia|destruct (next_spec (j - 1) ltac:(lia)); lia]. }
  apply in_map_iff. unfold tag_edge in E. destruct Hk as [->|[(-> & L)|[->|(-> & L)]]]; cbn [Z.eqb] in E; injection E as <- <-.
  - exists (2, i, p). split; [cbn; rewrite Ep; reflexivity|apply tags_in; lia].
  - exists (3, i + 1, j). split; [reflexivity|apply tags_in; lia].
  - exists (0, i, next j). split; [reflexivity|apply tags_in; lia].
  - exists (1, i - 1, j). split; [cbn; replace (i - 1 + 1) with i by lia; reflexivity|apply tags_in; lia].
Qed.
Lemma sphere_size_eq : sphere_size sh sv 0 sv = (sv - 1) * sh + 2.
Proof.
  unfold sphere_size. rewrite range_snoc by lia. rewrite range_cons by lia. cbn [app fold_left Z.eqb]. rewrite fold_left_app. cbn [fold_left].
  assert (G : forall k a n, 0 < a -> Z.to_nat (sv - a) = k -> a <= sv -> fold_left (fun n i => if i =? 0 then n + 1 else if i =? sv then n + 1 else n + sh) (range a sv) n = n + (sv - a) * sh).
  { induction k as [|k IH]; intros a n Ha Ek L; [rewrite range_nil by lia; cbn; assert (sv = a) by lia; subst a; lia|]. rewrite range_cons by lia. cbn [fold_left].
    destruct (Z.eqb_spec a 0); [lia|]. destruct (Z.eqb_spec a sv); [lia|]. rewrite IH by lia. lia. }
  rewrite (G (Z.to_nat (sv - (0 + 1)))) by lia. destruct (Z.eqb_spec sv 0); [lia|]. rewrite Z.eqb_refl. lia.
Qed.
Theorem sphere_proper : proper (fst (sphere sh sv)) (snd (sphere sh sv)).
Proof.
  cbn [sphere fst snd]. rewrite sphere_size_eq, sphere_faces_eq. split.
  - apply Forall_forall. intros f Hf. apply in_flat_map in Hf as (i & Hi & Hf). apply range_in in Hi. apply in_map_iff in Hf as (j & <- & Hj). apply upto_in in Hj. destruct (next_spec j Hj) as (Nj & Cj).
    assert (I : forall a b c d, 0 <= a <= sv -> 0 <= c <= sv -> 0 <= b < sh -> 0 <= d < sh -> (a <> c \/ a = c /\ 0 < a < sv /\ b <> d) -> vert a b <> vert c d).
    { intros a b c d Ha Hc Hb Hd D E. apply vert_inj in E; [|lia ..]. destruct E as (E1 & E2). destruct D as [D|(D1 & D2 & D3)]; [lia|]. apply D3, E2, D2. }
    unfold sface. destruct (Z.eqb_spec (i + 1) sv) as [E|E], (Z.eqb_spec i 0) as [E0|E0]; try lia; cbn [app length]; (split; [lia|]); (split; [|repeat constructor; apply vert_range; lia]);
      repeat constructor; cbn [In]; intros X; repeat (destruct X as [X|X]; [symmetry in X; revert X; apply I; lia|]); exact X.
  - intros v Hv. destruct (Z.eq_dec v 0) as [->|N0].
    + exists (sface 0 0). split; [apply in_flat_map; exists 0; split; [apply range_in; lia|apply in_map, upto_in; lia]|]. left. reflexivity.
    + destruct (Z.eq_dec v ((sv - 1) * sh + 1)) as [->|N1].
      * exists (sface (sv - 1) 0). split; [apply in_flat_map; exists (sv - 1); split; [apply range_in; lia|apply in_map, upto_in; lia]|]. unfold sface. destruct (Z.eqb_spec (sv - 1 + 1) sv); [|lia]. right. left.
        unfold vert. rewrite Z.eqb_refl. destruct (Z.eqb_spec sv 0); lia.
      * pose proof (Z.div_mod (v - 1) sh ltac:(lia)) as DM. pose proof (Z.mod_pos_bound (v - 1) sh ltac:(lia)) as MB. set (q := (v - 1) / sh) in *. set (r := (v - 1) mod sh) in *.
        assert (0 <= q < sv - 1) by nia. exists (sface q r). split; [apply in_flat_map; exists q; split; [apply range_in; lia|apply in_map, upto_in; lia]|]. unfold sface. destruct (Z.eqb_spec (q + 1) sv); [lia|].
        assert (E : vert (q + 1) r = v) by (unfold vert; destruct (Z.eqb_spec (q + 1) 0); [lia|]; destruct (Z.eqb_spec (q + 1) sv); [lia|]; nia). right. destruct (q =? 0); cbn [app]; left; exact E.
Qed.
Theorem sphere_euler : euler_sphere (fst (sphere sh sv)) (snd (sphere sh sv)).
Proof.
  unfold euler_sphere. cbn [sphere fst snd]. rewrite sphere_edges, map_length, sphere_size_eq, sphere_faces_eq.
  assert (F : forall (l : list Z), Z.of_nat (length (flat_map (fun i => map (sface i) (upto sh)) l)) = Z.of_nat (length l) * sh).
  { induction l as [|i l IH]; [reflexivity|]. cbn [flat_map length]. rewrite app_length, map_length, upto_length. lia. }
  assert (E1 : forall i (l : list Z), Z.of_nat (length (flat_map (tags_at i) l)) = Z.of_nat (length l) * ((if i + 1 =? sv then 3 else if i =? 0 then 3 else 4) + (if i + 1 =? sv then if i =? 0 then -1 else 0 else 0))).
  { intros i. induction l as [|j l IH]; [reflexivity|]. cbn [flat_map length]. rewrite app_length. unfold tags_at at 1. destruct (i + 1 =? sv), (i =? 0); cbn [app length]; lia. }
  assert (E2 : forall k a, Z.to_nat (sv - 1 - a) = k -> 0 < a <= sv - 1 -> Z.of_nat (length (flat_map (fun i => flat_map (tags_at i) (upto sh)) (range a (sv - 1)))) = (sv - 1 - a) * (4 * sh)).
  { induction k as [|k IH]; intros a Ek L; [rewrite range_nil by lia; cbn; assert (a = sv - 1) by lia; subst a; lia|]. rewrite range_cons by lia. cbn [flat_map]. rewrite app_length, Nat2Z.inj_add, IH by lia. rewrite E1, upto_length.
    destruct (Z.eqb_spec (a + 1) sv); [lia|]. destruct (Z.eqb_spec a 0); [lia|]. lia. }
  rewrite F, range_length. unfold tags.
  assert (Er : range 0 sv = 0 :: range (0 + 1) (sv - 1) ++ [sv - 1]) by (rewrite app_comm_cons, <- range_cons, <- range_snoc by lia; f_equal; lia).
  rewrite Er. cbn [flat_map]. rewrite flat_map_app. cbn [flat_map]. rewrite app_nil_r, !app_length, !Nat2Z.inj_add, (E2 (Z.to_nat (sv - 1 - (0 + 1)))), !E1, !upto_length by lia.
  destruct (Z.eqb_spec (0 + 1) sv); [lia|]. destruct (Z.eqb_spec (sv - 1 + 1) sv); [|lia]. destruct (Z.eqb_spec (sv - 1) 0); [lia|]. cbn [Z.eqb]. nia.
Qed.
End Sphere.

(** *** The capsule is the sphere of nine rows *)
Lemma capsule_sphere s : 0 <= s -> snd (capsule s) = snd (sphere s 9) /\ fst (capsule s) = fst (sphere s 9).
Proof.
  intros Hs. unfold capsule, sphere. cbn [fst snd].
  assert (N1 : sphere_size s 8 0 4 = 1 + 4 * s) by (unfold sphere_size; change (range 0 (4 + 1)) with [0; 1; 2; 3; 4]; cbn [fold_left Z.eqb Pos.eqb]; lia).
  split.
  - rewrite N1. unfold sphere_faces. assert (O1 : sphere_ofs s 0 0 = 1) by reflexivity. assert (O2 : sphere_ofs s 4 (1 + 4 * s) = 1 + s) by (unfold sphere_ofs; cbn [Z.ltb Z.compare Pos.compare Pos.compare_cont Z.eqb]; lia).
    rewrite O1, O2. change (range 0 4) with [0; 1; 2; 3]. change (range 4 8) with [4; 5; 6; 7]. change (range 0 9) with [0; 1; 2; 3; 4; 5; 6; 7; 8]. change (8 - 1) with 7. change (9 - 1) with 8.
    cbn [flat_map]. rewrite !app_nil_r, <- !app_assoc. cbn [Z.eqb Pos.eqb].
    repeat (apply (f_equal2 (@app _)); [apply map_ext; intros j; repeat (apply f_equal2; [lia|]); reflexivity|]). apply map_ext. intros j. repeat (apply f_equal2; [lia|]). reflexivity.
  - unfold sphere_size. change (range 0 (4 + 1)) with [0; 1; 2; 3; 4]. change (range 4 (8 + 1)) with [4; 5; 6; 7; 8]. change (range 0 (9 + 1)) with [0; 1; 2; 3; 4; 5; 6; 7; 8; 9]. cbn [fold_left Z.eqb Pos.eqb]. lia.
Qed.

Theorem capsule_closed s : 3 <= s -> closed (snd (capsule s)) /\ proper (fst (capsule s)) (snd (capsule s)) /\ euler_sphere (fst (capsule s)) (snd (capsule s)).
Proof.
  intros H. destruct (capsule_sphere s ltac:(lia)) as (-> & ->). split; [apply sphere_closed; lia|]. split; [apply sphere_proper; lia|apply sphere_euler; lia].
Qed.

(** *** The cylinder *)
Lemma upto_nth n k : (k < Z.to_nat n)%nat -> nth_error (upto n) k = Some (Z.of_nat k).
Proof. intros H. unfold upto. rewrite nth_error_map. rewrite (nth_error_nth' _ 0%nat) by (rewrite seq_length; exact H). rewrite seq_nth by exact H. reflexivity. Qed.
Lemma nth_ext_opt {A} (l l' : list A) : (forall k, nth_error l k = nth_error l' k) -> l = l'.
Proof.
  revert l'. induction l as [|x l IH]; intros [|y l'] H; [reflexivity|specialize (H 0%nat); discriminate|specialize (H 0%nat); discriminate|]. pose proof (H 0%nat) as H0. cbn in H0. injection H0 as ->. f_equal. apply IH. intros k. apply (H (S k)).
Qed.
Lemma nth_combine {A B} (l : list A) (l' : list B) k a b : nth_error l k = Some a -> nth_error l' k = Some b -> nth_error (combine l l') k = Some (a, b).
Proof. revert l' k. induction l as [|x l IH]; intros [|y l'] [|k] Ha Hb; cbn in *; try discriminate; [congruence|apply IH; assumption]. Qed.
(** The edges of a polygon given by a function. *)
Lemma polygon_edges (h : Z -> Z) s : 0 < s -> edges_of (map h (upto s)) = map (fun j => (h j, h ((j + 1) mod s))) (upto s).
Proof.
  intros Hs. assert (E0 : upto s = 0 :: map (fun k => Z.of_nat (S k)) (seq 0 (Z.to_nat s - 1))).
  { unfold upto. replace (Z.to_nat s) with (S (Z.to_nat s - 1)) at 1 by lia. cbn [seq map]. rewrite <- seq_shift, map_map. reflexivity. }
  assert (Ef : edges_of (map h (upto s)) = combine (map h (upto s)) (tl (map h (upto s)) ++ [h 0])) by (rewrite E0; reflexivity). rewrite Ef. apply nth_ext_opt. intros k.
  destruct (lt_dec k (Z.to_nat s)) as [L|L].
  - rewrite nth_error_map, (upto_nth s k L). cbn [option_map]. apply nth_combine; [rewrite nth_error_map, (upto_nth s k L); reflexivity|].
    assert (Lt : length (tl (map h (upto s))) = (Z.to_nat s - 1)%nat) by (rewrite E0; cbn [map tl]; rewrite !map_length, seq_length; reflexivity).
    destruct (mod_next s (Z.of_nat k) Hs ltac:(lia)) as [(A & ->)|(A & ->)].
    + rewrite nth_error_app2 by lia. replace (k - length (tl (map h (upto s))))%nat with 0%nat by lia. reflexivity.
    + rewrite nth_error_app1 by lia. transitivity (nth_error (map h (upto s)) (S k)); [rewrite E0; reflexivity|]. rewrite nth_error_map, upto_nth by lia. cbn. do 2 f_equal. lia.
  - transitivity (@None (Z * Z)); [|symmetry]; apply nth_error_None; [rewrite combine_length|]; rewrite !map_length, upto_length; lia.
Qed.

Section Cylinder.
Context (s : Z) (Hs : 3 <= s).
Definition cnext (j : Z) : Z := (j + 1) mod s.
Lemma cnext_spec j : 0 <= j < s -> 0 <= cnext j < s /\ ((j + 1 = s /\ cnext j = 0) \/ (j + 1 < s /\ cnext j = j + 1)).
Proof. intros Hj. unfold cnext. destruct (mod_next s j ltac:(lia) Hj) as [(A & B)|(A & B)]; rewrite B; lia. Qed.
(** Kinds 0-3 as above, 4 the top, 5 the bottom. *)
Definition ctag_edge (t : Z * Z) : Z * Z :=
  let '(k, j) := t in
  if k =? 0 then (j * 2, j * 2 + 1)
  else if k =? 1 then (j * 2 + 1, cnext j * 2 + 1)
  else if k =? 2 then (cnext j * 2 + 1, cnext j * 2)
  else if k =? 3 then (cnext j * 2, j * 2)
  else if k =? 4 then (j * 2, cnext j * 2)
  else ((s - j - 1) * 2 + 1, (s - cnext j - 1) * 2 + 1).
Definition ctags : list (Z * Z) := flat_map (fun j => [(0, j); (1, j); (2, j); (3, j)]) (upto s) ++ map (fun j => (4, j)) (upto s) ++ map (fun j => (5, j)) (upto s).
Lemma cylinder_edges : edges (snd (cylinder s)) = map ctag_edge ctags.
Proof.
  cbn [cylinder snd]. unfold edges, ctags. rewrite flat_map_app, !map_app. apply (f_equal2 (@app _)).
  - induction (upto s) as [|j r IH]; [reflexivity|]. cbn [map flat_map app]. rewrite IH. reflexivity.
  - cbn [flat_map]. rewrite app_nil_r, !polygon_edges, !map_map by lia. reflexivity.
Qed.
Lemma ctags_in k j : In (k, j) ctags <-> 0 <= j < s /\ 0 <= k < 6.
Proof.
  unfold ctags. rewrite !in_app_iff, in_flat_map, !in_map_iff. split.
  - intros [(x & Hx & H)|[(x & H & Hx)|(x & H & Hx)]]; apply upto_in in Hx; [|injection H as <- <-; lia ..]. cbn [In] in H. destruct H as [H|[H|[H|[H|[]]]]]; injection H as <- <-; lia.
  - intros (Hj & Hk). apply upto_in in Hj. assert (k = 0 \/ k = 1 \/ k = 2 \/ k = 3 \/ k = 4 \/ k = 5) as K by lia. destruct K as [->|[->|[->|[->|[->| ->]]]]].
    1-4: left; exists j; cbn; auto 6.
    + right; left. exists j. auto.
    + right; right. exists j. auto.
Qed.
Lemma ctags_nodup : NoDup ctags.
Proof.
  unfold ctags. assert (A : forall (l l' : list (Z * Z)), NoDup l -> NoDup l' -> (forall x, In x l -> ~ In x l') -> NoDup (l ++ l')).
  { intros l l' N N' D. induction l as [|x l IH]; [exact N'|]. inversion N as [|? ? N1 N2]; subst. cbn [app]. constructor.
    - intros H. apply in_app_or in H as [H|H]; [contradiction|apply (D x (or_introl eq_refl) H)].
    - apply IH; [exact N2|]. intros y Hy. apply D. right. exact Hy. }
  apply A; [|apply A|].
  - apply nodup_flat_map; [intros j _; repeat constructor; cbn [In]; intuition congruence|intros x y z _ _ Hx Hy; cbn [In] in Hx, Hy; intuition congruence|apply upto_nodup].
  - apply nodup_map; [intros x y _ _ E; congruence|apply upto_nodup].
  - apply nodup_map; [intros x y _ _ E; congruence|apply upto_nodup].
  - intros x H H'. apply in_map_iff in H as (y & <- & _). apply in_map_iff in H' as (z & E & _). discriminate.
  - intros x H H'. apply in_flat_map in H as (y & _ & H). apply in_app_or in H' as [H'|H']; apply in_map_iff in H' as (z & <- & _); cbn [In] in H; intuition discriminate.
Qed.
Lemma ctag_inj t t' : In t ctags -> In t' ctags -> ctag_edge t = ctag_edge t' -> t = t'.
Proof.
  destruct t as [k j], t' as [k' j']. intros H H'. apply ctags_in in H as (Hj & Hk). apply ctags_in in H' as (Hj' & Hk').
  destruct (cnext_spec j Hj) as (Nj & Cj), (cnext_spec j' Hj') as (Nj' & Cj'). assert (K : k = 0 \/ k = 1 \/ k = 2 \/ k = 3 \/ k = 4 \/ k = 5) by lia. assert (K' : k' = 0 \/ k' = 1 \/ k' = 2 \/ k' = 3 \/ k' = 4 \/ k' = 5) by lia.
  unfold ctag_edge. destruct K as [->|[->|[->|[->|[->| ->]]]]], K' as [->|[->|[->|[->|[->| ->]]]]]; cbn [Z.eqb Pos.eqb]; intros E; injection E as E1 E2; try lia; f_equal; lia.
Qed.
Theorem cylinder_closed : closed (snd (cylinder s)).
Proof.
  unfold closed. rewrite cylinder_edges. split; [apply nodup_map; [exact ctag_inj|exact ctags_nodup]|].
  intros a b H. apply in_map_iff in H as ([k j] & E & H). apply ctags_in in H as (Hj & Hk). destruct (cnext_spec j Hj) as (Nj & Cj).
  assert (exists p, 0 <= p < s /\ cnext p = j) as (p & Hp & Ep).
  { destruct (Z.eq_dec j 0) as [->|Nz]; [exists (s - 1)|exists (j - 1)]; (split; [lia|]); [destruct (cnext_spec (s - 1) ltac:(lia)); lia|destruct (cnext_spec (j - 1) ltac:(lia)); lia]. }
  assert (M : forall x, 0 <= x < s -> exists q, 0 <= q < s /\ s - cnext q - 1 = x /\ s - q - 1 = cnext x).
  { intros x Hx. destruct (cnext_spec x Hx) as (Nx & Cx). exists (s - cnext x - 1). split; [lia|]. split; [|lia]. destruct (cnext_spec (s - cnext x - 1) ltac:(lia)). lia. }
  apply in_map_iff. assert (K : k = 0 \/ k = 1 \/ k = 2 \/ k = 3 \/ k = 4 \/ k = 5) by lia. unfold ctag_edge in E. destruct K as [->|[->|[->|[->|[->| ->]]]]]; cbn [Z.eqb Pos.eqb] in E; injection E as <- <-.
  - exists (2, p). split; [cbn; rewrite Ep; reflexivity|apply ctags_in; lia].
  - destruct (M j Hj) as (q & Hq & E1 & E2). exists (5, q). split; [cbn; rewrite E1, E2; reflexivity|apply ctags_in; lia].
  - exists (0, cnext j). split; [reflexivity|apply ctags_in; lia].
  - exists (4, j). split; [reflexivity|apply ctags_in; lia].
  - exists (3, j). split; [reflexivity|apply ctags_in; lia].
  - exists (1, s - cnext j - 1). split; [cbn; destruct (cnext_spec (s - cnext j - 1) ltac:(lia)); f_equal; lia|apply ctags_in; lia].
Qed.
Theorem cylinder_proper : proper (fst (cylinder s)) (snd (cylinder s)).
Proof.
  cbn [cylinder fst snd]. rewrite upto_length. replace (Z.of_nat (Z.to_nat s)) with s by lia. split.
  - apply Forall_app. split.
    + apply Forall_forall. intros f Hf. apply in_map_iff in Hf as (i & <- & Hi). apply upto_in in Hi. destruct (cnext_spec i Hi) as (N & C). fold (cnext i). split; [cbn; lia|]. split; [|repeat constructor; lia].
      repeat constructor; cbn [In]; lia.
    + repeat constructor; rewrite ?map_length, ?upto_length; try lia.
      * apply nodup_map; [intros x y _ _; lia|apply upto_nodup].
      * apply Forall_forall. intros v Hv. apply in_map_iff in Hv as (i & <- & Hi). apply upto_in in Hi. lia.
      * apply nodup_map; [intros x y _ _; lia|apply upto_nodup].
      * apply Forall_forall. intros v Hv. apply in_map_iff in Hv as (i & <- & Hi). apply upto_in in Hi. lia.
  - intros v Hv. pose proof (Z.div_mod v 2 ltac:(lia)) as DM. pose proof (Z.mod_pos_bound v 2 ltac:(lia)) as MB. exists [v / 2 * 2; v / 2 * 2 + 1; ((v / 2 + 1) mod s) * 2 + 1; ((v / 2 + 1) mod s) * 2]. split.
    + apply in_or_app. left. apply in_map_iff. exists (v / 2). split; [reflexivity|]. apply upto_in. lia.
    + cbn [In]. lia.
Qed.
Theorem cylinder_euler : euler_sphere (fst (cylinder s)) (snd (cylinder s)).
Proof.
  unfold euler_sphere. rewrite cylinder_edges. cbn [cylinder fst snd]. unfold ctags. rewrite !map_length, !app_length, !map_length, !upto_length. cbn [length].
  assert (L : forall l : list Z, length (flat_map (fun j => [(0, j); (1, j); (2, j); (3, j)]) l) = (4 * length l)%nat) by (induction l as [|x l IH]; [reflexivity|]; cbn [flat_map length app]; rewrite IH; lia). rewrite L, upto_length. lia.
Qed.
End Cylinder.

(** *** Texture coordinates *)
Section UV.
Context {T : Type} (fr : Z -> Z -> T) (one_minus : T -> T).
Definition same_shape (faces : list (list Z)) (uvs : list (list (vec2 T))) : Prop := map (@length Z) faces = map (@length (vec2 T)) uvs.
Lemma sphere_uvs_shape sh sv t b vo : same_shape (sphere_faces sh sv t b vo) (sphere_uvs fr sh sv t b).
Proof.
  unfold same_shape, sphere_faces, sphere_uvs. induction (range t b) as [|i l IH]; [reflexivity|]. cbn [flat_map]. rewrite !map_app, IH. f_equal. rewrite !map_map. apply map_ext. intros j. destruct (i =? 0); [reflexivity|]. destruct (i =? sv - 1); reflexivity.
Qed.
Lemma shape_app a a' b b' : same_shape a b -> same_shape a' b' -> same_shape (a ++ a') (b ++ b').
Proof. unfold same_shape. intros H H'. rewrite !map_app, H, H'. reflexivity. Qed.
Theorem uvs_shape s sh sv : same_shape cube_faces (cube_uvs fr) /\ same_shape (snd (sphere sh sv)) (sphere_uvs fr sh sv 0 sv) /\ same_shape (snd (cylinder s)) (cylinder_uvs fr one_minus s) /\ same_shape (snd (capsule s)) (capsule_uvs fr one_minus s).
Proof.
  split; [reflexivity|]. split; [apply sphere_uvs_shape|]. split.
  - apply shape_app; [unfold same_shape, side_uvs; rewrite !map_map; reflexivity|]. unfold same_shape. cbn [map]. rewrite !map_length. reflexivity.
  - apply shape_app; [apply sphere_uvs_shape|]. apply shape_app; [unfold same_shape, side_uvs; rewrite !map_map; reflexivity|apply sphere_uvs_shape].
Qed.
End UV.
