(** Joints and weights of the glTF export. *)
From Coq Require Import String List ZArith Bool Lia Permutation Reals Lra.
From Verif.Model Require Import Num NumR Vec Matrix Mqo MqoDoc Mmd2Mqo Normals Mqo2Mmd Gltf Mqo2Gltf.
From Verif Require Import Proofs.MatrixLemmas Spec.GltfSpec Proofs.Mqo2MmdProofs Proofs.MqoObjProofs Proofs.Mmd2MqoFaces.
Import ListNotations.
Local Open Scope Z_scope.
Local Open Scope list_scope.

Section W.
Context {T : Type} {N : Num T}.
Variable centi : T.

Lemma list_set_same_length {A} (l : list A) i x : length (list_set l i x) = length l.
Proof. apply list_set_length. Qed.

Lemma each_vertex_proj (o : object T) act l : forall st st', each_vertex o act l st = Some st' ->
  length st' = length st /\
  forall v, zidx st' v = option_map (fun s => fold_left (fun s w => act w s) (map snd (filter (fun e => get_vertex_index_by_id o (fst e) =? v) l)) s) (zidx st v).
Proof.
  induction l as [|[vid w] r IH]; intros st st' H; cbn [each_vertex] in H.
  - injection H as <-. split; [reflexivity|]. intros v. cbn. destruct (zidx st v); reflexivity.
  - destruct (zidx st (get_vertex_index_by_id o vid)) as [s|] eqn:E; [|discriminate].
    apply IH in H as [H1 H2]. rewrite list_set_length in H1. split; [exact H1|]. intros v. rewrite H2.
    rewrite list_set_zidx by (apply zidx_bound in E; exact E). cbn [filter fst]. rewrite (Z.eqb_sym (get_vertex_index_by_id o vid) v).
    destruct (Z.eqb_spec v (get_vertex_index_by_id o vid)) as [->|]; [|reflexivity]. rewrite E. reflexivity.
Qed.

(** What one weight list does to a vertex to which it gives the weights [ws]. *)
Definition one_list (joint : Z) (ws : list T) (s : infl T) : infl T :=
  fold_left (fun s _ => renorm s) ws (fold_left (fun s w => put_weight joint (nmul w centi) s) ws s).
Definition weights_at (o : object T) (v : Z) (l : list (Z * T)) : list T :=
  map snd (filter (fun e => get_vertex_index_by_id o (fst e) =? v) l).
(** All lists, numbered from [k]. *)
Fixpoint all_lists (o : object T) (v : Z) (k : nat) (ls : list (list (Z * T))) (s : infl T) : infl T :=
  match ls with
  | [] => s
  | l :: r => all_lists o v (S k) r (one_list (Z.of_nat k mod 2 ^ 16) (weights_at o v l) s)
  end.

Lemma weights_loop_proj (o : object T) l : forall ids st ids' st', weights_loop centi o l ids st = Some (ids', st') ->
  ids' = ids ++ map fst l /\ length st' = length st /\
  forall v, zidx st' v = option_map (all_lists o v (length ids) (map snd l)) (zidx st v).
Proof.
  induction l as [|[b es] r IH]; intros ids st ids' st' H; cbn [weights_loop] in H.
  - injection H as <- <-. cbn. rewrite app_nil_r. repeat split. intros v. destruct (zidx st v); reflexivity.
  - set (j := (Z.of_nat (length (ids ++ [b])) - 1) mod 2 ^ 16) in H.
    destruct (each_vertex o (fun w => put_weight j (nmul w centi)) es st) as [st1|] eqn:E1; [|discriminate].
    destruct (each_vertex o (fun _ => renorm) es st1) as [st2|] eqn:E2; [|discriminate].
    apply each_vertex_proj in E1 as [L1 Z1]. apply each_vertex_proj in E2 as [L2 Z2].
    apply IH in H as (-> & L3 & Z3). split; [cbn; rewrite <- app_assoc; reflexivity|]. split; [congruence|].
    intros v. rewrite Z3, Z2, Z1. rewrite app_length. cbn [length map snd all_lists]. rewrite Nat.add_1_r.
    destruct (zidx st v); [|reflexivity]. cbn [option_map]. f_equal. f_equal. unfold one_list, weights_at, j.
    rewrite app_length. cbn [length]. replace (Z.of_nat (length ids + 1) - 1) with (Z.of_nat (length ids)) by lia. reflexivity.
Qed.

Lemma weight_lists_snd (o : object T) bones : map snd (weight_lists o bones) = lists_of o bones.
Proof.
  unfold weight_lists, lists_of. induction bones as [|b r IH]; [reflexivity|]. cbn [flat_map]. rewrite map_app, IH, map_map. reflexivity.
Qed.
(** The bones of the weight lists. *)
Definition list_bones (o : object T) (bones : list (bone T)) : list Z :=
  flat_map (fun b => map (fun _ => bID b) (filter (fun bw => fst bw =? oUID o) (bWeights b))) bones.
Lemma weight_lists_fst (o : object T) bones : map fst (weight_lists o bones) = list_bones o bones.
Proof.
  unfold weight_lists, list_bones. induction bones as [|b r IH]; [reflexivity|]. cbn [flat_map]. rewrite map_app, IH, map_map. reflexivity.
Qed.
Lemma list_bones_length (o : object T) bones : length (list_bones o bones) = length (lists_of o bones).
Proof. rewrite <- weight_lists_fst, <- weight_lists_snd, !map_length. reflexivity. Qed.

Lemma get_weights_proj (o : object T) bones ids inf : get_weights centi o bones = Some (ids, inf) ->
  ids = list_bones o bones /\ length inf = length (oVerts o) /\
  forall v, 0 <= v < Z.of_nat (length (oVerts o)) -> zidx inf v = Some (all_lists o v 0 (lists_of o bones) infl0).
Proof.
  intros H. apply weights_loop_proj in H as (-> & L & Zv). rewrite weight_lists_fst, weight_lists_snd in *.
  split; [reflexivity|]. split; [rewrite L; apply repeat_length|]. intros v Hv. rewrite Zv. cbn [length].
  replace (zidx (repeat infl0 (length (oVerts o))) v) with (Some (infl0 (T := T))); [reflexivity|].
  symmetry. apply zidx_Some. split; [lia|]. apply nth_error_repeat. lia.
Qed.

(** *** At most four influences *)

Definition padded (l : slots T) : slots T := l ++ repeat (0, nzero) (4 - length l).
Definition holds (l : slots T) (s : infl T) : Prop := ifN s = length l /\ ifSlots s = padded l.

Lemma put_small l j w s : holds l s -> (length l < 4)%nat -> holds (l ++ [(j, w)]) (put_weight j w s).
Proof.
  intros [E1 E2] H. unfold put_weight. rewrite E1, E2. replace (length l <? 4)%nat with true by (symmetry; apply Nat.ltb_lt; exact H).
  unfold holds, padded. cbn [ifN ifSlots]. rewrite app_length. cbn [length]. split; [lia|].
  replace (4 - length l)%nat with (S (4 - (length l + 1)))%nat by lia. cbn [repeat].
  rewrite <- app_assoc. cbn. apply list_set_mid.
Qed.
Lemma renorm_small l s : holds l s -> (length l <= 4)%nat -> renorm s = s.
Proof. intros [E1 _] H. unfold renorm. rewrite E1. replace (4 <? length l)%nat with false by (symmetry; apply Nat.ltb_ge; exact H). reflexivity. Qed.

Lemma puts_small j ws : forall l s, holds l s -> (length l + length ws <= 4)%nat ->
  holds (l ++ map (fun w => (j, nmul w centi)) ws) (fold_left (fun s w => put_weight j (nmul w centi) s) ws s).
Proof.
  induction ws as [|w r IH]; intros l s H L; cbn in *; [rewrite app_nil_r; exact H|].
  replace (l ++ (j, nmul w centi) :: map (fun w => (j, nmul w centi)) r) with ((l ++ [(j, nmul w centi)]) ++ map (fun w => (j, nmul w centi)) r)
    by (rewrite <- app_assoc; reflexivity).
  apply IH; [apply put_small; [exact H|lia]|rewrite app_length; cbn; lia].
Qed.
Lemma renorms_small (ws : list T) : forall l s, holds l s -> (length l <= 4)%nat -> fold_left (fun s _ => renorm s) ws s = s.
Proof. induction ws as [|w r IH]; intros l s H L; cbn; [reflexivity|]. rewrite (renorm_small l s H L). eapply IH; eassumption. Qed.

(** The influences of the lists from [k] on. *)
Fixpoint infl_from (o : object T) (v : Z) (k : nat) (ls : list (list (Z * T))) : slots T :=
  match ls with [] => [] | l :: r => map (fun w => (Z.of_nat k, nmul w centi)) (weights_at o v l) ++ infl_from o v (S k) r end.
Lemma infl_from_spec (o : object T) v ls : forall k,
  flat_map (fun jl => map (fun e => (Z.of_nat (fst jl), nmul (snd e) centi))
                          (filter (fun e => get_vertex_index_by_id o (fst e) =? v) (snd jl)))
           (combine (seq k (length ls)) ls) = infl_from o v k ls.
Proof.
  induction ls as [|l r IH]; intros k; [reflexivity|]. cbn [length seq combine flat_map infl_from fst snd]. rewrite IH.
  unfold weights_at. rewrite map_map. reflexivity.
Qed.
Lemma influences_from (o : object T) bones v : influences centi o bones v = infl_from o v 0 (lists_of o bones).
Proof. unfold influences. apply infl_from_spec. Qed.

Lemma all_lists_small (o : object T) v ls : forall k l s, holds l s -> (length l + length (infl_from o v k ls) <= 4)%nat ->
  Z.of_nat k + Z.of_nat (length ls) <= 65536 -> holds (l ++ infl_from o v k ls) (all_lists o v k ls s).
Proof.
  induction ls as [|x r IH]; intros k l s H L K; cbn [infl_from all_lists length] in *; [rewrite app_nil_r; exact H|].
  rewrite app_length, map_length in L. rewrite app_assoc. 
  replace (Z.of_nat k mod 2 ^ 16) with (Z.of_nat k) by (symmetry; apply Z.mod_small; lia).
  unfold one_list.
  assert (P : holds (l ++ map (fun w => (Z.of_nat k, nmul w centi)) (weights_at o v x))
                    (fold_left (fun s w => put_weight (Z.of_nat k) (nmul w centi) s) (weights_at o v x) s)).
  { apply puts_small; [exact H|lia]. }
  rewrite (renorms_small _ _ _ P) by (rewrite app_length, map_length; lia).
  apply IH; [exact P|rewrite app_length, map_length; lia|lia].
Qed.

Theorem weights_few (o : object T) bones ids inf v : get_weights centi o bones = Some (ids, inf) ->
  0 <= v < Z.of_nat (length (oVerts o)) -> Z.of_nat (length (lists_of o bones)) <= 65536 -> (length (influences centi o bones v) <= 4)%nat ->
  exists s, zidx inf v = Some s /\ ifSlots s = influences centi o bones v ++ repeat (0, nzero) (4 - length (influences centi o bones v)).
Proof.
  intros H Hv HL Hi. apply get_weights_proj in H as (_ & _ & Zv). rewrite (Zv v Hv). eexists. split; [reflexivity|].
  rewrite influences_from in *. apply (all_lists_small o v (lists_of o bones) 0 [] infl0); [split; reflexivity|exact Hi|lia].
Qed.

(** *** Any number *)

Lemma put_length j w s : length (ifSlots s) = 4%nat -> length (ifSlots (put_weight j w s)) = 4%nat.
Proof.
  intros H. unfold put_weight. destruct (ifN s <? 4)%nat; cbn [ifSlots]; [rewrite list_set_length; exact H|].
  destruct (min_slot _ _ _ _); cbn [ifSlots]; [rewrite list_set_length|]; exact H.
Qed.
Lemma renorm_slots s : exists c : T -> T, ifSlots (renorm s) = map (fun e => (fst e, c (snd e))) (ifSlots s).
Proof.
  assert (Id : ifSlots s = map (fun e : Z * T => (fst e, snd e)) (ifSlots s)).
  { rewrite <- (map_id (ifSlots s)) at 1. apply map_ext. intros []; reflexivity. }
  unfold renorm. destruct (4 <? ifN s)%nat; [|exists (fun x => x); exact Id].
  cbv zeta. destruct (nltb _ _); [|exists (fun x => x); exact Id]. cbn [ifSlots].
  exists (fun x => ndiv x (fold_left nadd (map snd (ifSlots s)) nzero)). reflexivity.
Qed.
Lemma in_list_set {A} (l : list A) i x y : In y (list_set l i x) -> y = x \/ In y l.
Proof.
  revert i; induction l as [|a r IH]; intros [|i] H; cbn in H; try (destruct H; fail).
  - destruct H as [<-|H]; [left; reflexivity|right; right; exact H].
  - destruct H as [<-|H]; [right; left; reflexivity|]. apply IH in H as [->|H]; [left; reflexivity|right; right; exact H].
Qed.

(** The joints of the slots are among [js] or 0. *)
Definition from_joints (js : list Z) (s : infl T) : Prop :=
  length (ifSlots s) = 4%nat /\ Forall (fun e => fst e = 0 \/ In (fst e) js) (ifSlots s).
Lemma put_joints js j w s : from_joints js s -> from_joints (js ++ [j]) (put_weight j w s).
Proof.
  intros [L F]. split; [apply put_length; exact L|]. rewrite Forall_forall in *. intros e He.
  assert (D : e = (j, w) \/ In e (ifSlots s)).
  { unfold put_weight in He. destruct (ifN s <? 4)%nat; cbn [ifSlots] in He; [apply in_list_set in He; exact He|].
    destruct (min_slot _ _ _ _); cbn [ifSlots] in He; [apply in_list_set in He; exact He|right; exact He]. }
  destruct D as [->|D]; [right; apply in_or_app; right; left; reflexivity|].
  destruct (F _ D) as [Q|Q]; [left; exact Q|right; apply in_or_app; left; exact Q].
Qed.
Lemma renorm_joints js s : from_joints js s -> from_joints js (renorm s).
Proof.
  intros [L F]. unfold from_joints. destruct (renorm_slots s) as (c & ->). rewrite map_length. split; [exact L|]. rewrite Forall_map. exact F.
Qed.
Lemma one_list_joints js j ws s : from_joints js s -> from_joints (js ++ map (fun _ => j) ws) (one_list j ws s).
Proof.
  intros H. unfold one_list.
  assert (P : from_joints (js ++ map (fun _ => j) ws) (fold_left (fun s w => put_weight j (nmul w centi) s) ws s)).
  { revert js s H. induction ws as [|w r IH]; intros js s H; cbn; [rewrite app_nil_r; exact H|].
    change (j :: map (fun _ : T => j) r) with ([j] ++ map (fun _ : T => j) r). rewrite app_assoc. apply IH. apply put_joints. exact H. }
  revert P. generalize (fold_left (fun s w => put_weight j (nmul w centi) s) ws s) (js ++ map (fun _ => j) ws). clear.
  induction ws as [|w r IH]; intros s js P; cbn; [exact P|]. apply IH, renorm_joints, P.
Qed.
Lemma all_lists_joints (o : object T) v ls : forall k js s, from_joints js s -> Z.of_nat k + Z.of_nat (length ls) <= 65536 ->
  from_joints (js ++ map fst (infl_from o v k ls)) (all_lists o v k ls s).
Proof.
  induction ls as [|x r IH]; intros k js s H K; cbn [infl_from all_lists length] in *; [rewrite app_nil_r; exact H|].
  rewrite map_app, map_map, app_assoc. cbn [fst].
  replace (Z.of_nat k mod 2 ^ 16) with (Z.of_nat k) by (symmetry; apply Z.mod_small; lia).
  apply IH; [|lia]. apply one_list_joints. exact H.
Qed.
Lemma infl0_joints : from_joints [] (infl0 (T := T)).
Proof. split; [reflexivity|]. repeat constructor. Qed.

(** Every slot names a joint of the vertex, or is empty. *)
Theorem weights_joints (o : object T) bones ids inf v s : get_weights centi o bones = Some (ids, inf) ->
  Z.of_nat (length (lists_of o bones)) <= 65536 -> zidx inf v = Some s ->
  length (ifSlots s) = 4%nat /\ Forall (fun e => fst e = 0 \/ In (fst e) (map fst (influences centi o bones v))) (ifSlots s).
Proof.
  intros H HL Hs. apply get_weights_proj in H as (_ & L & Zv). pose proof (zidx_bound _ _ _ Hs) as B. rewrite L in B.
  rewrite (Zv v B) in Hs. injection Hs as <-. rewrite influences_from. apply (all_lists_joints o v _ 0 [] infl0 infl0_joints). lia.
Qed.

(** Joint numbers count the weight lists. *)
Lemma influences_bound (o : object T) bones v : Forall (fun e => 0 <= fst e < Z.of_nat (length (lists_of o bones))) (influences centi o bones v).
Proof.
  rewrite influences_from. generalize (lists_of o bones). intros ls.
  assert (G : forall k, Forall (fun e => Z.of_nat k <= fst e < Z.of_nat (k + length ls)) (infl_from o v k ls)).
  { induction ls as [|x r IH]; intros k; cbn [infl_from length]; [constructor|]. apply Forall_app. split.
    - rewrite Forall_map. apply Forall_forall. intros w _. cbn. lia.
    - eapply Forall_impl; [|apply (IH (S k))]. cbn. intros e He. lia. }
  eapply Forall_impl; [|apply (G 0%nat)]. cbn. intros; lia.
Qed.
End W.

(** *** Normalising, in exact arithmetic *)

Section WR.
Local Open Scope R_scope.
Variable centi : R.
Existing Instance RNum.

Definition total (l : slots R) : R := fold_left Rplus (map snd l) 0.
Lemma fold_plus (l : list R) a : fold_left Rplus l a = a + fold_left Rplus l 0.
Proof. revert a; induction l as [|x r IH]; intros a; cbn; [lra|]. rewrite IH, (IH (0 + x)). lra. Qed.
Lemma total_cons e l : total (e :: l) = snd e + total l.
Proof. unfold total. cbn. rewrite fold_plus. lra. Qed.
Lemma total_scaled c l : total (map (fun e => (fst e, snd e / c)) l) = total l / c.
Proof.
  induction l as [|e r IH]; [unfold total; cbn; unfold Rdiv; lra|]. cbn [map]. rewrite !total_cons, IH. cbn [snd]. unfold Rdiv. lra.
Qed.
Lemma total_pos l : Forall (fun e => 0 <= snd e) l -> 0 <= total l.
Proof. induction 1 as [|e r H _ IH]; [unfold total; cbn; lra|]. rewrite total_cons. lra. Qed.
Lemma total_in l e : Forall (fun e => 0 <= snd e) l -> In e l -> snd e <= total l.
Proof.
  induction 1 as [|a r H F IH]; intros Hi; [destruct Hi|]. rewrite total_cons. destruct Hi as [->|Hi].
  - pose proof (total_pos _ F). lra.
  - apply IH in Hi. lra.
Qed.

Lemma renorm_big (s : infl R) : (4 < ifN s)%nat -> 0 < total (ifSlots s) ->
  renorm s = mkInfl (ifN s) (map (fun e => (fst e, snd e / total (ifSlots s))) (ifSlots s)).
Proof.
  intros H1 H2. unfold renorm. replace (4 <? ifN s)%nat with true by (symmetry; apply Nat.ltb_lt; exact H1).
  cbv zeta. change (fold_left nadd (map snd (ifSlots s)) nzero) with (total (ifSlots s)).
  assert (Q : nltb nzero (total (ifSlots s)) = true). { apply Rltb_true. exact H2. }
  rewrite Q. reflexivity.
Qed.

(** Positive weights: the slots are positive, and sum to one if there were more than four. *)
Definition pos_slots (s : infl R) : Prop :=
  length (ifSlots s) = 4%nat /\ Forall (fun e => 0 <= snd e) (ifSlots s) /\ ((0 < ifN s)%nat -> 0 < total (ifSlots s)).

Lemma forall_list_set {A} (P : A -> Prop) (l : list A) i x : Forall P l -> P x -> Forall P (list_set l i x).
Proof.
  intros F H. rewrite Forall_forall in *. intros y Hy. apply in_list_set in Hy as [->|Hy]; auto.
Qed.
Lemma in_list_set_new {A} (l : list A) i x : (i < length l)%nat -> In x (list_set l i x).
Proof. intros H. eapply nth_error_In. rewrite list_set_nth by exact H. rewrite Nat.eqb_refl. reflexivity. Qed.

Lemma min_slot_spec l : forall i least best,
  (min_slot i l least best = best /\ Forall (fun e => least <= snd e) l) \/
  (exists k e, min_slot i l least best = Some (i + k)%nat /\ nth_error l k = Some e /\ snd e < least /\ Forall (fun x => snd e <= snd x) l).
Proof.
  induction l as [|[j w] r IH]; intros i least best; cbn [min_slot].
  - left. split; [reflexivity|constructor].
  - change (nltb w least) with (Rltb w least). destruct (Rltb w least) eqn:E.
    + apply Rltb_true in E. right. destruct (IH (S i) w (Some i)) as [[Q F]|(k & e & Q & Hn & Hl & F)].
      * exists 0%nat, (j, w). rewrite Q, Nat.add_0_r. repeat split; [exact E|]. constructor; [cbn; lra|exact F].
      * exists (S k), e. rewrite Q. split; [f_equal; lia|]. split; [exact Hn|]. split; [lra|]. constructor; [cbn; lra|exact F].
    + apply Rltb_false in E. destruct (IH (S i) least best) as [[Q F]|(k & e & Q & Hn & Hl & F)].
      * left. split; [exact Q|]. constructor; [cbn; lra|exact F].
      * right. exists (S k), e. rewrite Q. split; [f_equal; lia|]. split; [exact Hn|]. split; [exact Hl|]. constructor; [cbn; lra|exact F].
Qed.

Lemma put_n j w (s : infl R) : ifN (put_weight j w s) = S (ifN s).
Proof. unfold put_weight. destruct (ifN s <? 4)%nat; [reflexivity|]. destruct (min_slot _ _ _ _); reflexivity. Qed.
Lemma put_pos j w (s : infl R) : 0 < w -> pos_slots s -> pos_slots (put_weight j w s).
Proof.
  intros Hw (L & F & P). split; [apply put_length; exact L|].
  assert (D : exists i, (i < 4)%nat /\ ifSlots (put_weight j w s) = list_set (ifSlots s) i (j, w) \/ ifSlots (put_weight j w s) = ifSlots s /\ (4 <= ifN s)%nat).
  { unfold put_weight. destruct (Nat.ltb_spec (ifN s) 4).
    - exists (ifN s). left. split; [exact H|reflexivity].
    - destruct (min_slot_spec (ifSlots s) 0 w None) as [[-> _]|(k & e & -> & Hn & _)].
      + exists O. right. split; [reflexivity|exact H].
      + exists k. left. split; [|reflexivity]. rewrite <- L. apply nth_error_Some. congruence. }
  destruct D as (i & [[Hi ->]|[-> Hn]]).
  - assert (F' : Forall (fun e => 0 <= snd e) (list_set (ifSlots s) i (j, w))) by (apply forall_list_set; [exact F|cbn; lra]).
    split; [exact F'|]. intros _. assert (Q : In (j, w) (list_set (ifSlots s) i (j, w))) by (apply in_list_set_new; lia).
    apply (total_in _ _ F') in Q. cbn in Q. lra.
  - split; [exact F|]. intros _. apply P. lia.
Qed.
Lemma puts_pos j ws : forall s, Forall (fun w => 0 < w * centi) ws -> pos_slots s ->
  pos_slots (fold_left (fun s w => put_weight j (nmul w centi) s) ws s) /\
  ifN (fold_left (fun s w => put_weight j (nmul w centi) s) ws s) = (ifN s + length ws)%nat.
Proof.
  induction ws as [|w r IH]; intros s F P; cbn [fold_left length]; [rewrite Nat.add_0_r; auto|].
  inversion F; subst. destruct (IH (put_weight j (nmul w centi) s)) as [P1 P2]; [assumption|apply put_pos; assumption|].
  split; [exact P1|]. rewrite P2, put_n. lia.
Qed.
Lemma renorm_n (s : infl R) : ifN (renorm s) = ifN s.
Proof. unfold renorm. destruct (4 <? ifN s)%nat; [|reflexivity]. cbv zeta. destruct (nltb _ _); reflexivity. Qed.
Lemma renorm_pos (s : infl R) : pos_slots s -> pos_slots (renorm s) /\ ((4 < ifN s)%nat -> total (ifSlots (renorm s)) = 1).
Proof.
  intros (L & F & P). destruct (Nat.lt_ge_cases 4 (ifN s)) as [H|H].
  - assert (P0 : 0 < total (ifSlots s)) by (apply P; lia). rewrite renorm_big by assumption.
    assert (Q : total (map (fun e => (fst e, snd e / total (ifSlots s))) (ifSlots s)) = 1).
    { rewrite total_scaled. field. lra. }
    split; [|intros _; exact Q]. split; [cbn [ifSlots]; rewrite map_length; exact L|]. cbn [ifSlots ifN]. split; [|intros _; rewrite Q; lra].
    rewrite Forall_map. eapply Forall_impl; [|exact F]. cbn. intros e He. apply Rmult_le_pos; [exact He|]. left. apply Rinv_0_lt_compat. exact P0.
  - split; [|lia]. unfold renorm. replace (4 <? ifN s)%nat with false by (symmetry; apply Nat.ltb_ge; exact H). repeat split; assumption.
Qed.
Definition normal_slots (s : infl R) : Prop := pos_slots s /\ ((4 < ifN s)%nat -> total (ifSlots s) = 1).
Lemma renorms_normal (ws : list R) : forall s, normal_slots s -> normal_slots (fold_left (fun s _ => renorm s) ws s) /\
  ifN (fold_left (fun s _ => renorm s) ws s) = ifN s.
Proof.
  induction ws as [|w r IH]; intros s H; cbn [fold_left]; [auto|]. destruct (renorm_pos s (proj1 H)) as [P1 P2].
  destruct (IH (renorm s)) as [I1 I2]; [split; [exact P1|rewrite renorm_n; exact P2]|]. split; [exact I1|]. rewrite I2. apply renorm_n.
Qed.
Lemma one_list_normal j ws s : Forall (fun w => 0 < w * centi) ws -> normal_slots s ->
  normal_slots (one_list centi j ws s) /\ ifN (one_list centi j ws s) = (ifN s + length ws)%nat.
Proof.
  intros F H. unfold one_list. destruct (puts_pos j ws s F (proj1 H)) as [P1 P2]. destruct ws as [|w r].
  - cbn. rewrite Nat.add_0_r. auto.
  - set (p := fold_left (fun s w => put_weight j (nmul w centi) s) (w :: r) s) in *.
    destruct (renorm_pos p P1) as [Q1 Q2]. cbn [fold_left].
    destruct (renorms_normal r (renorm p)) as [I1 I2]; [split; [exact Q1|rewrite renorm_n; exact Q2]|].
    split; [exact I1|]. rewrite I2, renorm_n. exact P2.
Qed.
Lemma all_lists_normal (o : object R) v ls : forall k s, Forall (fun e => 0 < snd e) (infl_from centi o v k ls) -> normal_slots s ->
  normal_slots (all_lists centi o v k ls s) /\ ifN (all_lists centi o v k ls s) = (ifN s + length (infl_from centi o v k ls))%nat.
Proof.
  induction ls as [|x r IH]; intros k s F H; cbn [infl_from all_lists]; [cbn; rewrite Nat.add_0_r; auto|].
  cbn [infl_from] in F. apply Forall_app in F as [F1 F2]. rewrite Forall_map in F1.
  destruct (one_list_normal (Z.of_nat k mod 2 ^ 16) (weights_at o v x) s F1 H) as [N1 N2].
  destruct (IH (S k) _ F2 N1) as [I1 I2]. split; [exact I1|]. rewrite I2, N2, app_length, map_length. lia.
Qed.
Lemma infl0_normal : normal_slots infl0.
Proof. split; [|cbn; lia]. split; [reflexivity|]. split; [repeat constructor; cbn; lra|cbn; lia]. Qed.

Theorem weights_total (o : object R) bones ids inf v s : get_weights centi o bones = Some (ids, inf) -> zidx inf v = Some s ->
  Forall (fun e => 0 < snd e) (influences centi o bones v) -> (4 < length (influences centi o bones v))%nat ->
  Forall (fun e => 0 <= snd e) (ifSlots s) /\ fold_left Rplus (map snd (ifSlots s)) 0 = 1.
Proof.
  intros H Hs F L. apply get_weights_proj in H as (_ & LI & Zv). pose proof (zidx_bound _ _ _ Hs) as B. rewrite LI in B.
  rewrite (Zv v B) in Hs. injection Hs as <-. rewrite influences_from in *.
  destruct (all_lists_normal o v _ 0 infl0 F infl0_normal) as [((_ & P & _) & Q) E]. split; [exact P|]. apply Q. rewrite E. cbn. exact L.
Qed.

(** *** Five influences *)

Definition dropped (l : slots R) (s : infl R) : Prop :=
  exists x rest c, Permutation l (x :: rest) /\ Forall (fun y => snd x <= snd y) rest /\ 0 < c /\
    Permutation (ifSlots s) (map (fun e => (fst e, snd e / c)) rest) /\ ifN s = 5%nat.
Lemma list_set_perm {A} (l : list A) i e x : nth_error l i = Some e -> Permutation (x :: l) (e :: list_set l i x).
Proof.
  revert i; induction l as [|a r IH]; intros [|i] H; cbn in *; try discriminate.
  - injection H as <-. apply perm_swap.
  - rewrite perm_swap. rewrite (IH i H) at 1. apply perm_swap.
Qed.
Lemma div1 (l : slots R) : map (fun e => (fst e, snd e / 1)) l = l.
Proof. rewrite <- (map_id l) at 2. apply map_ext. intros [j w]. cbn. f_equal. field. Qed.

Lemma put_fifth l j w s : holds l s -> length l = 4%nat -> dropped (l ++ [(j, w)]) (put_weight j w s).
Proof.
  intros [E1 E2] L. unfold padded in E2. rewrite L in *. cbn [Nat.sub repeat] in E2. rewrite app_nil_r in E2. unfold put_weight. rewrite E1. cbn [Nat.ltb Nat.leb].
  destruct (min_slot_spec (ifSlots s) 0 w None) as [[-> F]|(k & e & -> & Hn & Hl & F)].
  - exists (j, w), l, 1. rewrite div1. cbn [ifSlots ifN]. rewrite E2 in F |- *. split; [symmetry; apply Permutation_cons_append|].
    split; [exact F|]. split; [lra|]. split; reflexivity.
  - exists e, (list_set l k (j, w)), 1. rewrite div1. cbn [ifSlots ifN Nat.add]. rewrite E2 in Hn, F |- *.
    split; [rewrite <- Permutation_cons_append; apply list_set_perm; exact Hn|].
    split; [apply forall_list_set; [exact F|cbn; lra]|]. split; [lra|]. split; reflexivity.
Qed.
Lemma renorm_dropped l s : dropped l s -> dropped l (renorm s).
Proof.
  intros (x & rest & c & P1 & F & Hc & P2 & E). unfold renorm. rewrite E. cbn [Nat.ltb Nat.leb]. cbv zeta.
  destruct (nltb nzero (fold_left nadd (map snd (ifSlots s)) nzero)) eqn:El.
  - change (Rltb 0 (total (ifSlots s)) = true) in El. apply Rltb_true in El.
    exists x, rest, (c * total (ifSlots s)). split; [exact P1|]. split; [exact F|]. split; [apply Rmult_lt_0_compat; assumption|].
    cbn [ifSlots ifN]. split; [|reflexivity].
    rewrite (Permutation_map (fun e => (fst e, ndiv (snd e) (fold_left nadd (map snd (ifSlots s)) nzero))) P2). rewrite map_map. cbn [fst snd].
    replace (map (fun x0 : Z * R => (fst x0, ndiv (snd x0 / c) (fold_left nadd (map snd (ifSlots s)) nzero))) rest)
      with (map (fun e => (fst e, snd e / (c * total (ifSlots s)))) rest); [reflexivity|].
    apply map_ext. intros e. f_equal. change (snd e / (c * total (ifSlots s)) = snd e / c / total (ifSlots s)). field. lra.
  - exists x, rest, c. repeat split; assumption.
Qed.
Definition upto5 (l : slots R) (s : infl R) : Prop := (length l <= 4)%nat /\ holds l s \/ length l = 5%nat /\ dropped l s.
Lemma puts_upto5 j ws : forall l s, upto5 l s -> (length l + length ws <= 5)%nat ->
  upto5 (l ++ map (fun w => (j, nmul w centi)) ws) (fold_left (fun s w => put_weight j (nmul w centi) s) ws s).
Proof.
  induction ws as [|w r IH]; intros l s H L; cbn [map fold_left length] in *; [rewrite app_nil_r; exact H|].
  replace (l ++ (j, nmul w centi) :: map (fun w => (j, nmul w centi)) r) with ((l ++ [(j, nmul w centi)]) ++ map (fun w => (j, nmul w centi)) r)
    by (rewrite <- app_assoc; reflexivity).
  apply IH; [|rewrite app_length; cbn; lia].
  destruct H as [[H1 H2]|[H1 _]]; [|lia]. destruct (Nat.eq_dec (length l) 4).
  - right. split; [rewrite app_length; cbn; lia|]. apply put_fifth; assumption.
  - left. split; [rewrite app_length; cbn; lia|]. apply put_small; [exact H2|lia].
Qed.
Lemma renorms_upto5 (ws : list R) : forall l s, upto5 l s -> upto5 l (fold_left (fun s _ => renorm s) ws s).
Proof.
  induction ws as [|w r IH]; intros l s H; cbn [fold_left]; [exact H|]. apply IH. destruct H as [[H1 H2]|[H1 H2]].
  - left. split; [exact H1|]. rewrite (renorm_small l); assumption.
  - right. split; [exact H1|]. apply renorm_dropped. exact H2.
Qed.
Lemma all_lists_upto5 (o : object R) v ls : forall k l s, upto5 l s -> (length l + length (infl_from centi o v k ls) <= 5)%nat ->
  (Z.of_nat k + Z.of_nat (length ls) <= 65536)%Z -> upto5 (l ++ infl_from centi o v k ls) (all_lists centi o v k ls s).
Proof.
  induction ls as [|x r IH]; intros k l s H L K; cbn [infl_from all_lists length] in *; [rewrite app_nil_r; exact H|].
  rewrite app_length, map_length in L. rewrite app_assoc.
  replace (Z.of_nat k mod 2 ^ 16)%Z with (Z.of_nat k) by (symmetry; apply Z.mod_small; lia).
  apply IH; [|rewrite app_length, map_length; lia|lia]. unfold one_list. apply renorms_upto5, puts_upto5; [exact H|lia].
Qed.

(** With five, the weakest is left out and the others are divided by their sum. *)
Theorem weights_five (o : object R) bones ids inf v s : get_weights centi o bones = Some (ids, inf) -> zidx inf v = Some s ->
  (Z.of_nat (length (lists_of o bones)) <= 65536)%Z ->
  Forall (fun e => 0 < snd e) (influences centi o bones v) -> length (influences centi o bones v) = 5%nat ->
  exists x rest, Permutation (influences centi o bones v) (x :: rest) /\ Forall (fun y => snd x <= snd y) rest /\
    Permutation (ifSlots s) (map (fun e => (fst e, snd e / fold_left Rplus (map snd rest) 0)) rest).
Proof.
  intros H Hs HL F L. destruct (weights_total o bones ids inf v s H Hs F ltac:(lia)) as [_ Q].
  apply get_weights_proj in H as (_ & LI & Zv). pose proof (zidx_bound _ _ _ Hs) as B. rewrite LI in B.
  rewrite (Zv v B) in Hs. injection Hs as <-. rewrite influences_from in *.
  destruct (all_lists_upto5 o v (lists_of o bones) 0 [] infl0) as [[Q1 _]|[_ (x & rest & c & P1 & P2 & P3 & P4 & _)]].
  - left. split; [cbn; lia|split; reflexivity].
  - cbn. lia.
  - lia.
  - cbn in Q1. lia.
  - exists x, rest. split; [exact P1|]. split; [exact P2|].
    assert (TP : forall a b : slots R, Permutation a b -> total a = total b).
    { induction 1; rewrite ?total_cons; try reflexivity; try lra. }
    fold (total (ifSlots (all_lists centi o v 0 (lists_of o bones) infl0))) in Q.
    rewrite (TP _ _ P4), total_scaled in Q.
    assert (E : c = total rest). { apply (Rmult_eq_compat_r c) in Q. unfold Rdiv in Q. rewrite Rmult_assoc, Rinv_l in Q by lra. lra. }
    fold (total rest). rewrite <- E. exact P4.
Qed.
End WR.
