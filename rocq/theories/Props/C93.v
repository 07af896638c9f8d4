(** C93: loading a scene file without prefabs. *)
From Coq Require Import String Ascii List ZArith Bool Lia Permutation.
From Verif.Model Require Import Vec UnityScene.
From Verif.Spec Require Import SceneFileSpec.
From Verif.Proofs Require Import LoadProofs.
Import ListNotations.
Local Open Scope string_scope.
Local Open Scope list_scope.
Local Open Scope Z_scope.

(** Every object is visited exactly once, as deep as the fathers of its transform say. *)
Theorem C93_visited : forall (T : Type) (zero : T) of_int to_int files order, (forall l, Permutation (order l) l) -> forall ds depth guid n, tree_file ds depth -> files guid = Some ds ->
  exists s m, load zero of_int to_int files order (S n) guid = Loaded s /\ forall fuel, (m <= fuel)%nat ->
  NoDup (map fst (visits_all s fuel)) /\
  forall a d, In (a, d) (visits_all s fuel) <-> exists f k t, a = ([], f) /\ In (k, DTr (Some t)) ds /\ srFile (utGo t) = f /\ d = depth k.
Proof. exact @tree_visited. Qed.
Print Assumptions C93_visited.
(** Roots are the objects whose transform has no father, in the order of the file; transforms and objects are as in the file and know each other, and children come in the order
    of the list in the file. *)
Theorem C93_loaded : forall (T : Type) (zero : T) of_int to_int files order, (forall l, Permutation (order l) l) -> forall ds depth guid n, tree_file ds depth -> files guid = Some ds ->
  exists s, load zero of_int to_int files order (S n) guid = Loaded s /\
  scRoots s = flat_map (fun x => match snd x with
                                 | DGo (Some _) => if existsb (fun y => match snd y with DTr (Some t) => (srFile (utGo t) =? fst x) && (srFile (utFather t) =? 0) | _ => false end) ds then [([], fst x)] else []
                                 | _ => [] end) ds /\
  (forall k t, In (k, DTr (Some t)) ds ->
     tr_at s ([], k) = Some t /\ transform_object s ([], k) = Some ([], srFile (utGo t)) /\ object_transform s ([], srFile (utGo t)) = Some ([], k) /\
     get_children s ([], k) = flat_map (fun c => match c with Some r => [([], srFile r)] | None => [] end) (utChildren t)) /\
  (forall f g, In (f, DGo (Some g)) ds -> go_at s ([], f) = Some g).
Proof. exact @tree_loaded. Qed.
Print Assumptions C93_loaded.

(** A scene with a root that has two children. *)
Definition C93_ref (k : Z) : sref := mkSRef k "" 0.
Definition C93_tr (g father : Z) (cs : list Z) : @udoc Z :=
  DTr (Some (mkUT (C93_ref g) (Some (C93_ref 0)) (Some (C93_ref 0)) (C93_ref father) (map (fun c => Some (C93_ref c)) cs) (mkV4 0 0 0 1) (mkV3 0 0 0) (mkV3 1 1 1) (mkV3 0 0 0) 0)).
Definition C93_go (name : string) (cs : list Z) : @udoc Z := DGo (Some (mkUG name 1 "Untagged" (map C93_ref cs) (Some (C93_ref 0)) (Some (C93_ref 0)))).
Definition C93_docs : list (Z * @udoc Z) :=
  [(29, DOther); (10, C93_go "left" [11; 12]); (11, C93_tr 10 21 []); (12, DRend (Some (mkUR 1 []))); (20, C93_go "root" [21]); (21, C93_tr 20 0 [31; 11]); (30, C93_go "right" [31]); (31, C93_tr 30 21 [])].
Definition C93_depth (k : Z) : nat := if k =? 21 then 0%nat else 1%nat.
Definition C93_files (g : string) : option (list (Z * @udoc Z)) := if String.eqb g "s" then Some C93_docs else None.
Example C93_example : match load 0 (fun x => x) (fun x => x) C93_files (fun l => l) 1 "s" with
  | Loaded s => visits_all s 3 = [(([], 20), 0%nat); (([], 30), 1%nat); (([], 10), 1%nat)]
  | _ => False end.
Proof. reflexivity. Qed.
Ltac C93_cases := repeat match goal with H : _ \/ _ |- _ => destruct H as [H|H] | H : False |- _ => destruct H | H : (_, _) = (_, _) |- _ => injection H; clear H; intros; subst; try discriminate end.
Example C93_meets : tree_file C93_docs C93_depth.
Proof.
  constructor.
  - cbn. repeat constructor; cbn; intuition discriminate.
  - cbn. intuition discriminate.
  - intros f d I. cbn in I. C93_cases; exact I.
  - intros f g I. unfold C93_docs in I. cbn [In] in I. C93_cases; unfold C93_go in *; try match goal with H : DGo _ = DGo _ |- _ => injection H as <- end; cbn [ugComps ugCorr map];
    (split; [repeat constructor|]); (split; [reflexivity|]).
    + exists 11. eexists. split; [right; right; left; reflexivity|]. split; [reflexivity|]. split; [now left|]. intros k' t' I H. unfold C93_docs in I. cbn in I, H. C93_cases; discriminate || reflexivity.
    + exists 21. eexists. split; [do 5 right; left; reflexivity|]. split; [reflexivity|]. split; [now left|]. intros k' t' I H. unfold C93_docs in I. cbn in I, H. C93_cases; discriminate || reflexivity.
    + exists 31. eexists. split; [do 7 right; left; reflexivity|]. split; [reflexivity|]. split; [now left|]. intros k' t' I H. unfold C93_docs in I. cbn in I, H. C93_cases; discriminate || reflexivity.
  - intros k t I. unfold C93_docs in I. cbn [In] in I. C93_cases; unfold C93_tr in *; try match goal with H : DTr _ = DTr _ |- _ => injection H as <- end; cbn [utGo utChildren map C93_ref srFile option_map];
    (split; [reflexivity|]); (split; [intros r J; cbn in J; repeat (destruct J as [J|J]; [injection J as <-; reflexivity|]); destruct J|]); (split; [repeat constructor; cbn; intuition discriminate|]); eexists;
    (split; [unfold C93_docs, C93_go; cbn [In]; eauto 12|now left]).
  - intros k c K. split.
    + intros (t & r & I & J & <-). unfold C93_docs in I. cbn [In] in I. C93_cases; unfold C93_tr in *; try match goal with H : DTr _ = DTr _ |- _ => injection H as <- end; cbn in J; repeat (destruct J as [J|J]; [injection J as <-|]); try destruct J;
      cbn [srFile C93_ref]; eexists; (split; [unfold C93_docs, C93_tr; cbn [In map]; eauto 12|reflexivity]).
    + intros (t & I & F). unfold C93_docs in I. cbn [In] in I. C93_cases; unfold C93_tr in *; try match goal with H : DTr _ = DTr _ |- _ => injection H as <- end; cbn in K; try congruence;
      (eexists; eexists; split; [unfold C93_docs, C93_tr; cbn [In map]; eauto 12|cbn [utChildren In map]; first [split; [left; reflexivity|reflexivity]|split; [right; left; reflexivity|reflexivity]]]).
  - intros c t I. unfold C93_docs in I. cbn [In] in I. C93_cases; unfold C93_tr in *; try match goal with H : DTr _ = DTr _ |- _ => injection H as <- end; reflexivity.
Qed.

(** Refuted: of the transforms only the plain kind is known, so nothing below a RectTransform is visited. *)
Definition C93_rect (g : string) : option (list (Z * @udoc Z)) :=
  if String.eqb g "s" then Some [(10, C93_go "canvas" [11]); (11, DOther); (20, C93_go "cube" [21]); (21, C93_tr 20 11 [])] else None.
Theorem C93_rect_refuted : forall n m, match load 0 (fun x => x) (fun x => x) C93_rect (fun l => l) (S n) "s" with Loaded s => visits_all s m = [] | _ => False end.
Proof. intros n m. reflexivity. Qed.
Print Assumptions C93_rect_refuted.
