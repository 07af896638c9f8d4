(** The objects of a converted FBX document form the tree of its models. *)
From Coq Require Import String Ascii List ZArith Bool Lia.
From Verif.Model Require Import Num Vec Matrix Mqo MqoDoc Mmd2Mqo FbxDoc Fbx2Mqo.
From Verif.Spec Require Import GltfSpec FbxDocSpec FbxSceneSpec.
From Verif.Proofs Require Import FbxWalk.
Import ListNotations.
Local Open Scope string_scope.
Local Open Scope list_scope.
Local Open Scope Z_scope.

Scheme walk_mut := Induction for walk Sort Prop with walks_mut := Induction for walks Sort Prop.

Lemma tree_parent_shift pre post ds i p : tree_parent ds i p -> tree_parent (pre ++ ds ++ post) (length pre + i) (length pre + p).
Proof.
  intros (di & dp & A & B & C & D & E). exists di, dp.
  assert (Li : (i < length ds)%nat) by (apply nth_error_Some; congruence). assert (Lp : (p < length ds)%nat) by (apply nth_error_Some; congruence).
  assert (X : forall k, (k < length ds)%nat -> nth_error (pre ++ ds ++ post) (length pre + k) = nth_error ds k).
  { intros k K. rewrite nth_error_app2 by lia. rewrite nth_error_app1 by lia. f_equal. lia. }
  rewrite !X by assumption. split; [exact A|]. split; [exact B|]. split; [lia|]. split; [exact D|].
  intros j dj J Hj. apply (E (j - length pre)%nat dj); [lia|]. rewrite <- (X (j - length pre)%nat) by lia. now replace (length pre + (j - length pre))%nat with j by lia.
Qed.

Section T.
Context {T : Type} {N : Num T}.
Variable d : fdoc T.
Variable op : foption T.
Notation labels := (labels d op).
Notation label := (@label T).
Notation below := (below d op).

Definition hung (L : list label) (i : nat) (l : label) : Prop :=
  exists j q, nth_error L j = Some (q, None) /\ tree_parent (map depth_of L) i j /\ below l q.
Lemma hung_shift pre L post i l : hung L i l -> hung (pre ++ L ++ post) (length pre + i) l.
Proof.
  intros (j & q & A & B & C). exists (length pre + j)%nat, q. assert (Lj : (j < length L)%nat) by (apply nth_error_Some; congruence). split; [|split; [|exact C]].
  - rewrite nth_error_app2, nth_error_app1 by lia. now replace (length pre + j - length pre)%nat with j by lia.
  - rewrite !map_app. rewrite <- (map_length (@depth_of T) pre). now apply tree_parent_shift.
Qed.

Lemma forest_labels : forall path os vs, walks d (opWhole op) path os vs ->
  let L := flat_map labels vs in Forall (fun l => Z.of_nat (length path) <= depth_of l) L /\
    forall i l, nth_error L i = Some l -> (exists c, l = (path ++ [c], None) /\ In c os) \/ hung L i l.
Proof.
  apply (walks_mut T d (opWhole op)
    (fun path o vs _ => let L := flat_map labels vs in (exists r, L = (path ++ [o], None) :: r /\ Forall (fun l => Z.of_nat (length path) + 1 <= depth_of l) r) /\
       forall i l, nth_error L i = Some l -> i = 0%nat \/ hung L i l)
    (fun path os vs _ => let L := flat_map labels vs in Forall (fun l => Z.of_nat (length path) <= depth_of l) L /\
       forall i l, nth_error L i = Some l -> (exists c, l = (path ++ [c], None) /\ In c os) \/ hung L i l)).
  - intros path o vs W [B C]. cbn [flat_map]. set (L := flat_map labels vs) in *. set (S := shapes_at d op o).
    assert (LE : labels (path ++ [o]) = (path ++ [o], None) :: map (fun s => (path ++ [o], Some s)) S) by (unfold FbxSceneSpec.labels; now rewrite last_last). rewrite LE.
    assert (DT : Forall (fun l => depth_of l = Z.of_nat (length path) + 1) (map (fun s => (path ++ [o], Some s)) S)).
    { apply Forall_forall. intros l I. apply in_map_iff in I. destruct I as (s & <- & _). unfold depth_of. cbn [snd fst]. rewrite app_length. cbn [length]. lia. }
    assert (DR : Forall (fun l => Z.of_nat (length path) + 1 <= depth_of l) (map (fun s => (path ++ [o], Some s)) S ++ L)).
    { apply Forall_app. split; [eapply Forall_impl; [|exact DT]; intros l E; cbn beta in E; lia|]. eapply Forall_impl; [|exact B]. intros l E. cbn beta in E. rewrite app_length in E. cbn [length] in E. lia. }
    split.
    + cbn [app]. eexists. split; [reflexivity|exact DR].
    + intros i l H. destruct i as [|i]; [now left|]. right. cbn [app nth_error] in H.
      assert (TP : depth_of l = Z.of_nat (length path) + 1 -> tree_parent (map depth_of (((path ++ [o], None) :: map (fun s => (path ++ [o], Some s)) S) ++ L)) (Datatypes.S i) 0).
      { intros Dl. exists (depth_of l), (Z.of_nat (length path)). cbn [app map nth_error]. split; [now apply map_nth_error|]. split; [f_equal; unfold depth_of; cbn [snd fst]; rewrite app_length; cbn [length]; lia|].
        split; [lia|]. split; [lia|]. intros j dj J Hj. destruct j as [|j]; [lia|]. cbn [nth_error] in Hj.
        assert (I := nth_error_In _ _ Hj). apply in_map_iff in I. destruct I as (l' & <- & I). rewrite Forall_forall in DR. specialize (DR l' I). lia. }
      destruct (Nat.lt_ge_cases i (length S)) as [Hi|Hi].
      * rewrite nth_error_app1 in H by now rewrite map_length. assert (I := nth_error_In _ _ H). exists 0%nat, (path ++ [o]). split; [reflexivity|]. split.
        -- apply TP. rewrite Forall_forall in DT. now apply DT.
        -- apply in_map_iff in I. destruct I as (s & <- & I). unfold below. cbn [snd fst]. rewrite last_last. now split.
      * rewrite nth_error_app2 in H by now rewrite map_length. destruct (C _ _ H) as [(c & -> & I)|Hh].
        -- exists 0%nat, (path ++ [o]). split; [reflexivity|]. split; [apply TP; unfold depth_of; cbn [snd fst]; rewrite !app_length; cbn [length]; lia|].
           unfold below. cbn [snd fst]. exists c. split; [reflexivity|]. rewrite last_last. apply filter_In in I. destruct I as [I K]. split; [exact I|]. apply orb_true_iff in K. destruct K as [K|K]; [now left|right]. now apply negb_true_iff in K.
        -- assert (X := hung_shift ((path ++ [o], None) :: map (fun s => (path ++ [o], Some s)) S) L [] _ _ Hh). rewrite app_nil_r in X. cbn [length] in X. rewrite map_length in X. revert X.
           rewrite ?map_length. replace (Datatypes.S (length S) + (i - length S))%nat with (Datatypes.S i) by lia. exact (fun X => X).
  - intros path. cbn. split; [constructor|]. intros [|i] l H; discriminate.
  - intros path o os vs ws W [(r & R & D) C] W' [B C']. cbn beta zeta in *. rewrite flat_map_app. set (L1 := flat_map labels vs) in *. set (L2 := flat_map labels ws) in *. split.
    + apply Forall_app. split; [|exact B]. rewrite R. constructor; [unfold depth_of; cbn [snd fst]; rewrite app_length; cbn [length]; lia|]. eapply Forall_impl; [|exact D]. intros l E. cbn beta in E. lia.
    + intros i l H. destruct (Nat.lt_ge_cases i (length L1)) as [Hi|Hi].
      * rewrite nth_error_app1 in H by exact Hi. destruct (C _ _ H) as [->|Hh].
        -- left. exists o. rewrite R in H. injection H as <-. split; [reflexivity|now left].
        -- right. exact (hung_shift [] L1 L2 _ _ Hh).
      * rewrite nth_error_app2 in H by exact Hi. destruct (C' _ _ H) as [(c & -> & I)|Hh]; [left; exists c; split; [reflexivity|now right]|].
        right. assert (X := hung_shift L1 L2 [] _ _ Hh). rewrite app_nil_r in X. now replace (length L1 + (i - length L1))%nat with i in X by lia.
Qed.
Lemma roots_labels os vs : walks d (opWhole op) [] os vs ->
  let L := flat_map labels vs in forall i l, nth_error L i = Some l -> (exists c, l = ([c], None) /\ In c os /\ tree_root (map depth_of L) i) \/ hung L i l.
Proof.
  intros W L i l H. destruct (forest_labels _ _ _ W) as [B C]. fold L in B, C. destruct (C i l H) as [(c & -> & I)|Hh]; [left|now right]. exists c. split; [reflexivity|]. split; [exact I|].
  exists 0. split; [erewrite map_nth_error by exact H; reflexivity|]. intros j dj _ Hj. assert (J := nth_error_In _ _ Hj). apply in_map_iff in J. destruct J as (l' & <- & J). rewrite Forall_forall in B. exact (B l' J).
Qed.
End T.
