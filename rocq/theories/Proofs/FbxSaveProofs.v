(** FBX documents that are saved as text and loaded. *)
From Coq Require Import String Ascii List ZArith Bool Lia.
From Verif.Model Require Import Num Vec Matrix Codec Fbx FbxDoc FbxText Fbx2Mqo FbxRead.
From Verif.Spec Require Import FbxTextSpec FbxReadSpec FbxSaveSpec.
From Verif.Model Require MqoDoc.
From Verif.Spec Require FbxSceneSpec.
From Verif.Proofs Require FbxObjects.
From Verif.Proofs Require Import FbxReadProofs FbxTextProofs FbxTextTop.
Import ListNotations.
Local Open Scope list_scope.
Local Open Scope Z_scope.

Section Save.
Context {T : Type} {N : Num T}.
Variables (f32 f64 of_int : Z -> T) (local_of : (string -> list (option T)) -> mat4 T).
Variables (parse_float : bytes -> Z * bool) (fmt32 fmt64 : Z -> bytes).
Hypothesis SN : same_numbers parse_float fmt32 fmt64 f32 f64 of_int.
Hypothesis EXT : forall p q, (forall n, p n = q n) -> local_of p = local_of q.
Local Notation reads := (reads_as parse_float fmt32 fmt64).
Local Notation tree := (tree_as parse_float fmt32 fmt64).
Local Notation trees := (trees_as parse_float fmt32 fmt64).

(** *** Attributes *)
Lemma keeps_float a b i : usual i a -> reads a b -> float_of f32 f64 of_int a = float_of f32 f64 of_int b.
Proof.
  destruct SN as (A & B & C & D). intros U R. destruct R; cbn in *; try reflexivity; try contradiction.
  - rewrite <- A by assumption. rewrite H1. reflexivity.
  - rewrite <- B by assumption. rewrite H1. reflexivity.
  - rewrite (C _ _ H). reflexivity.
  - rewrite (D _ _ H). reflexivity.
Qed.
Lemma map_two {A B C} (f : A -> C) (g : B -> C) (R : A -> B -> Prop) l l' : Forall2 R l l' -> (forall x y, R x y -> f x = g y) -> map f l = map g l'.
Proof. intros F H. induction F; [reflexivity|]. cbn. rewrite (H _ _ H0), IHF. reflexivity. Qed.
Lemma forall_two {A B} (P : A -> Prop) (R : A -> B -> Prop) l l' : Forall P l -> Forall2 R l l' -> Forall2 (fun x y => P x /\ R x y) l l'.
Proof. intros F G. induction G; constructor; inversion F; subst; auto. Qed.
Lemma keeps_floats a b i : usual i a -> reads a b -> float_array f32 f64 of_int (Some a) = float_array f32 f64 of_int (Some b).
Proof.
  destruct SN as (A & B & C & D). intros U R. destruct R; cbn [float_array usual] in *; try reflexivity; try contradiction.
  - f_equal. apply (map_two _ _ _ _ _ (forall_two _ _ _ _ H0 H2)). intros x y [Nx <-]. symmetry. apply A, Nx.
  - replace (map f32 l) with (map f64 xs). { destruct xs; [|reflexivity]. inversion H2; subst. contradiction. }
    symmetry. apply (map_two _ _ _ _ _ (forall_two _ _ _ _ H0 H2)). intros x y [Nx <-]. symmetry. apply B, Nx.
  - f_equal. apply (map_two _ _ _ _ _ H0). intros x y E. symmetry. apply C, E.
  - replace (map f32 l) with (map of_int vs). { destruct vs; [|reflexivity]. inversion H0; subst. contradiction. }
    symmetry. apply (map_two _ _ _ _ _ H0). intros x y E. symmetry. apply D, E.
Qed.
Lemma keeps_int a b i : usual i a -> ~ is_float a -> reads a b -> forall d, to_int64 d (Some a) = to_int64 d (Some b).
Proof. intros U F R d. destruct R; cbn in *; try reflexivity; try contradiction; try (exfalso; apply F; exact I). Qed.
Lemma wrap_same v : int32 v -> wrap32 v = v.
Proof. unfold int32, wrap32. intros H. rewrite Z.mod_small; lia. Qed.
Lemma keeps_ints a b i : usual i a -> ~ is_float a -> reads a b -> int_array (Some a) = int_array (Some b).
Proof.
  intros U F R. destruct R; cbn [int_array usual is_float] in *; try reflexivity; try contradiction; try (exfalso; apply F; exact I).
  rewrite (map_ext_in _ (fun v => v)), map_id. { destruct l; [contradiction|reflexivity]. }
  intros v I. apply wrap_same. exact (proj1 (Forall_forall _ _) H0 v I).
Qed.
Lemma keeps_str a b i : usual i a -> i <> 1%nat -> reads a b -> to_str (Some a) = to_str (Some b).
Proof. intros U J R. destruct R; cbn in *; try reflexivity; try contradiction. exfalso. apply (U J). exists a, b. reflexivity. Qed.
Lemma keeps_name a b i : usual i a -> reads a b -> renamed (str (to_str (Some a))) (str (to_str (Some b))).
Proof. intros U R. destruct R; try (left; reflexivity); try contradiction. right. exists a, b. auto. Qed.

(** *** Lists of attributes *)
Definition arel (l l' : list attr) : Prop := Forall2 reads l l' /\ (forall i x, nth_error l i = Some x -> usual i x).
Lemma attrs_all l l' : attrs_as parse_float fmt32 fmt64 l l' -> (forall x, In x l -> ~ empty_array x) -> Forall2 reads l l'.
Proof.
  intros A. induction A; intros H0.
  - constructor.
  - constructor; [assumption|]. apply IHA. intros x I. apply H0. right. exact I.
  - destruct (H0 a (or_introl eq_refl) H).
Qed.
Lemma usual_full i a : usual i a -> ~ empty_array a.
Proof. intros U [->|[->|[->|[->|[->| ->]]]]]; cbn in U; try contradiction; apply U; reflexivity. Qed.
Lemma arel_at l l' i : arel l l' -> (nth_error l i = None /\ nth_error l' i = None) \/ exists a b, nth_error l i = Some a /\ nth_error l' i = Some b /\ reads a b /\ usual i a.
Proof.
  intros [F U]. assert (G : forall i, (nth_error l i = None /\ nth_error l' i = None) \/ exists a b, nth_error l i = Some a /\ nth_error l' i = Some b /\ reads a b).
  { clear U. induction F as [|a b l l' R F IH]; intros [|j]; cbn; eauto 7. }
  destruct (G i) as [H|(a & b & E & E' & R)]; [left; exact H|]. right. exists a, b. eauto.
Qed.
Lemma arel_str l l' i : arel l l' -> i <> 1%nat -> to_str (attr_at_ l i) = to_str (attr_at_ l' i).
Proof. intros A J. unfold attr_at_. destruct (arel_at l l' i A) as [[-> ->]|(a & b & -> & -> & R & U)]; [reflexivity|]. eapply keeps_str; eauto. Qed.
Lemma arel_name l l' i : arel l l' -> renamed (str (to_str (attr_at_ l i))) (str (to_str (attr_at_ l' i))).
Proof. intros A. unfold attr_at_. destruct (arel_at l l' i A) as [[-> ->]|(a & b & -> & -> & R & U)]; [left; reflexivity|]. eapply keeps_name; eauto. Qed.
Lemma arel_int l l' i d : arel l l' -> (forall a, nth_error l i = Some a -> ~ is_float a) -> to_int64 d (attr_at_ l i) = to_int64 d (attr_at_ l' i).
Proof. intros A F. unfold attr_at_. destruct (arel_at l l' i A) as [[-> ->]|(a & b & E & -> & R & U)]; [reflexivity|]. rewrite E. eapply keeps_int; eauto. Qed.
Lemma arel_all {B} (f g : attr -> B) l l' : arel l l' -> (forall i a b, nth_error l i = Some a -> usual i a -> reads a b -> f a = g b) -> map f l = map g l'.
Proof.
  intros [F U]. revert f g. enough (G : forall k, (forall i x, nth_error l i = Some x -> usual (k + i) x) -> forall f g : attr -> B,
    (forall i a b, nth_error l i = Some a -> usual (k + i) a -> reads a b -> f a = g b) -> map f l = map g l') by (intros f g; apply (G 0%nat); exact U).
  clear U. induction F as [|a b l l' R F IH]; intros k U f g H; [reflexivity|]. cbn. f_equal.
  - apply (H 0%nat); [reflexivity|apply U; reflexivity|exact R].
  - apply (IH (S k)).
    + intros i x E. replace (S k + i)%nat with (k + S i)%nat by lia. apply U, E.
    + intros i x y E Ux. replace (S k + i)%nat with (k + S i)%nat in Ux by lia. apply (H (S i)); assumption.
Qed.
Lemma arel_floats l l' : arel l l' -> floats_of f32 f64 of_int l = floats_of f32 f64 of_int l'.
Proof.
  intros A. unfold floats_of.
  assert (E : float_array f32 f64 of_int (attr_at_ l 0) = float_array f32 f64 of_int (attr_at_ l' 0)).
  { unfold attr_at_. destruct (arel_at l l' 0 A) as [[-> ->]|(a & b & -> & -> & R & U)]; [reflexivity|]. eapply keeps_floats; eauto. }
  rewrite E. destruct (float_array f32 f64 of_int (attr_at_ l' 0)); [reflexivity|]. apply (arel_all _ _ _ _ A). intros i a b _ U R. rewrite (keeps_float a b i U R). reflexivity.
Qed.
Lemma arel_ints l l' : arel l l' -> (forall x, In x l -> ~ is_float x) -> ints_of l = ints_of l'.
Proof.
  intros A W. unfold ints_of.
  assert (E : int_array (attr_at_ l 0) = int_array (attr_at_ l' 0)).
  { unfold attr_at_. destruct (arel_at l l' 0 A) as [[-> ->]|(a & b & E & -> & R & U)]; [reflexivity|]. rewrite E. apply (keeps_ints a b 0); auto. apply W. eapply nth_error_In, E. }
  rewrite E. destruct (int_array (attr_at_ l' 0)); [reflexivity|]. apply (arel_all _ _ _ _ A). intros i a b Ea U R. f_equal. apply (keeps_int a b i); auto. apply W. eapply nth_error_In, Ea.
Qed.
Lemma arel_length l l' : arel l l' -> length l = length l'.
Proof. intros [F _]. induction F; cbn; congruence. Qed.
Lemma arel_skip l l' k : arel l l' -> map (float_of f32 f64 of_int) (skipn k l) = map (float_of f32 f64 of_int) (skipn k l').
Proof. intros A. rewrite <- !skipn_map. f_equal. apply (arel_all _ _ _ _ A). intros i a b _ U R. exact (keeps_float a b i U R). Qed.

(** *** Nodes *)
Definition nrel (n n' : node) : Prop := tidy n /\ tree n n'.
Inductive orel {A} (R : A -> A -> Prop) : option A -> option A -> Prop := on : orel R None None | os x y : R x y -> orel R (Some x) (Some y).
Lemma trees_two l l' : Forall tidy l -> trees l l' -> Forall2 nrel l l'.
Proof. intros F R. induction R; constructor; inversion F; subst; [split; assumption|auto]. Qed.
Lemma nrel_parts n n' : nrel n n' -> node_name n = node_name n' /\ arel (node_attrs n) (node_attrs n') /\ Forall2 nrel (node_kids n) (node_kids n').
Proof.
  intros [Ty R]. inversion R as [nm a a' k k' I A K]; subst. inversion Ty as [? ? ? U W F]; subst. cbn. split; [reflexivity|]. split.
  - constructor; [|exact U]. apply attrs_all; [exact A|]. intros x Ix. destruct (In_nth_error _ _ Ix) as [i E]. exact (usual_full i x (U i x E)).
  - apply trees_two; assumption.
Qed.
Lemma nrel_whole n n' : nrel n n' -> of_whole n -> forall x, In x (node_attrs n) -> ~ is_float x.
Proof. intros [Ty R]. inversion Ty; subst. assumption. Qed.
Lemma child_rel nm l l' : Forall2 nrel l l' -> orel nrel (find_child nm l) (find_child nm l').
Proof. intros F. induction F as [|x y l l' H F IH]; cbn; [constructor|]. destruct (nrel_parts _ _ H) as (E & _). rewrite <- E. destruct (beq _ _); [constructor; exact H|exact IH]. Qed.
Lemma kid_rel nm o o' : orel nrel o o' -> orel nrel (kid nm o) (kid nm o').
Proof. intros [|x y H]; [constructor|]. apply child_rel, (nrel_parts _ _ H). Qed.
Lemma attrs_rel o o' : orel nrel o o' -> arel (attrs_at o) (attrs_at o').
Proof. intros [|x y H]; [constructor; [constructor|intros [|i] x E; discriminate]|]. apply (nrel_parts _ _ H). Qed.
Lemma kids_rel o o' : orel nrel o o' -> Forall2 nrel (kids_at o) (kids_at o').
Proof. intros [|x y H]; [constructor|]. apply (nrel_parts _ _ H). Qed.
Lemma child_named nm l x : find_child nm l = Some x -> node_name x = nm.
Proof. induction l as [|y l IH]; [discriminate|]. cbn. destruct (beq (node_name y) nm) eqn:E; [|exact IH]. intros [= <-]. apply beq_eq, E. Qed.
Lemma kid_ints nm o o' : orel nrel o o' -> In (byt nm) whole_names -> ints_of (attrs_at (kid nm o)) = ints_of (attrs_at (kid nm o')).
Proof.
  intros R I. apply arel_ints; [apply attrs_rel, kid_rel, R|]. destruct R as [|y z H]; [intros x []|]. cbn [kid].
  destruct (nrel_parts _ _ H) as (_ & _ & K). pose proof (child_rel (byt nm) _ _ K) as C. destruct (find_child (byt nm) (node_kids y)) as [c|] eqn:E; [|intros x []].
  inversion C as [|? c' Hc]; subst. apply (nrel_whole _ _ Hc). left. rewrite (child_named _ _ _ E). exact I.
Qed.
Lemma kid_floats nm o o' : orel nrel o o' -> floats_of f32 f64 of_int (attrs_at (kid nm o)) = floats_of f32 f64 of_int (attrs_at (kid nm o')).
Proof. intros R. apply arel_floats, attrs_rel, kid_rel, R. Qed.
Lemma kid_string nm o o' : orel nrel o o' -> to_str (attr_at_ (attrs_at (kid nm o)) 0) = to_str (attr_at_ (attrs_at (kid nm o')) 0).
Proof. intros R. apply arel_str; [apply attrs_rel, kid_rel, R|discriminate]. Qed.

(** *** Properties *)
Lemma find_rel {A} (R : A -> A -> Prop) f l l' : Forall2 R l l' -> (forall x y, R x y -> f x = f y) -> orel R (find f l) (find f l').
Proof. intros F H. induction F as [|x y l l' E F IH]; cbn; [constructor|]. rewrite <- (H x y E). destruct (f x); [constructor; exact E|exact IH]. Qed.
Lemma rev_rel {A} (R : A -> A -> Prop) l l' : Forall2 R l l' -> Forall2 R (rev l) (rev l').
Proof. intros F. induction F; cbn; [constructor|]. apply Forall2_app; [assumption|]. constructor; [assumption|constructor]. Qed.
Lemma row_rel o o' n : orel nrel o o' -> orel nrel (row o n) (row o' n).
Proof.
  intros R. unfold row. apply find_rel; [apply rev_rel, kids_rel, kid_rel, R|]. intros x y H. unfold row_named. f_equal.
  apply arel_str; [apply (nrel_parts _ _ H)|discriminate].
Qed.
Lemma property_rel o o' t t' n : orel nrel o o' -> orel nrel t t' -> orel nrel (property_row o t n) (property_row o' t' n).
Proof. intros R R'. unfold property_row. destruct (row_rel o o' n R) as [|x y H]; [apply row_rel, R'|constructor; exact H]. Qed.
Lemma props_rel o o' t t' n : orel nrel o o' -> orel nrel t t' -> props f32 f64 of_int o t n = props f32 f64 of_int o' t' n.
Proof.
  intros R R'. unfold props. destruct (property_rel o o' t t' n R R') as [|x y H]; [reflexivity|]. apply arel_skip, (nrel_parts _ _ H).
Qed.
Lemma row_name o n r : row o n = Some r -> to_str (attr_at_ (node_attrs r) 0) = byt n.
Proof. intros E. apply find_some in E. destruct E as [_ E]. apply beq_eq, E. Qed.

(** *** Objects *)
Lemma layer_rel {A} o o' el idx (v : option node -> list A) : orel nrel o o' -> In (byt idx) whole_names -> (forall x x', orel nrel x x' -> v x = v x') ->
  read_layer o el idx v = read_layer o' el idx v.
Proof.
  intros R I V. pose proof (kid_rel el _ _ R) as K. unfold read_layer, layer_string. rewrite (kid_ints idx _ _ K I), (V _ _ K), !(kid_string _ _ _ K). reflexivity.
Qed.
Lemma shape_renamed l l' : arel l l' -> renamed (shape_name l) (shape_name l').
Proof. intros A. unfold shape_name. rewrite <- (arel_length _ _ A). apply arel_name, A. Qed.
Lemma geom_rel n n' : nrel n n' -> same_obj (Some (OGeom (read_geom f32 f64 of_int n))) (Some (OGeom (read_geom f32 f64 of_int n'))).
Proof.
  intros H. assert (R : orel nrel (Some n) (Some n')) by (constructor; exact H). destruct (nrel_parts _ _ H) as (E & A & K).
  constructor; cbn [read_geom gName gKind gVerts gIndex gOwn gMats gNormals gUVs gShapes].
  - apply shape_renamed, A.
  - f_equal. apply arel_str; [exact A|discriminate].
  - f_equal. apply kid_floats, R.
  - apply kid_ints; [exact R|cbn; tauto].
  - apply kid_ints; [exact R|cbn; tauto].
  - apply layer_rel; [exact R|cbn; tauto|reflexivity].
  - apply layer_rel; [exact R|cbn; tauto|]. intros x x' X. f_equal. apply kid_floats, X.
  - apply layer_rel; [exact R|cbn; tauto|]. intros x x' X. f_equal. apply kid_floats, X.
  - induction K as [|x y l l' Hx K IH]; cbn [filter]; [constructor|]. destruct (nrel_parts _ _ Hx) as (Ex & Ax & _). assert (Nx : is_named "Shape" y = is_named "Shape" x) by (unfold is_named; rewrite Ex; reflexivity). rewrite Nx.
    destruct (is_named "Shape" x); [|exact IH]. cbn [map]. constructor; [|exact IH]. assert (Rx : orel nrel (Some x) (Some y)) by (constructor; exact Hx).
    split; [apply shape_renamed, Ax|]. split; cbn [read_shape shVerts shIndexes]; [f_equal; apply kid_floats, Rx|apply kid_ints; [exact Rx|cbn; tauto]].
Qed.
Lemma model_rel o o' t t' : orel nrel o o' -> orel nrel t t' -> same_obj (Some (OModel (read_model f32 f64 of_int local_of o t))) (Some (OModel (read_model f32 f64 of_int local_of o' t'))).
Proof.
  intros R R'. pose proof (attrs_rel _ _ R) as A. constructor; cbn [read_model fmName fmKind fmLocal fmPivot].
  - apply arel_name, A.
  - f_equal. apply arel_str; [exact A|discriminate].
  - apply EXT. intros n. apply props_rel; assumption.
  - rewrite (props_rel o o' t t' _ R R'). reflexivity.
Qed.
Lemma obj_rel n n' t t' : nrel n n' -> orel nrel t t' -> same_obj (Some (read_obj f32 f64 of_int local_of n t)) (Some (read_obj f32 f64 of_int local_of n' t')).
Proof.
  intros H R'. assert (R : orel nrel (Some n) (Some n')) by (constructor; exact H). destruct (nrel_parts _ _ H) as (E & A & K).
  unfold read_obj, is_named. rewrite <- E.
  destruct (beq (node_name n) (byt "Deformer")).
  { replace (read_def f32 f64 of_int n') with (read_def f32 f64 of_int n); [constructor|]. unfold read_def.
    rewrite !(kid_floats _ _ _ R), (kid_ints "Indexes" _ _ R) by (cbn; tauto). rewrite (arel_str _ _ 2 A) by discriminate. reflexivity. }
  destruct (beq (node_name n) (byt "Geometry")); [apply geom_rel, H|].
  destruct (beq (node_name n) (byt "Material")).
  { constructor; cbn [fxName fxProp]; [apply arel_name, A|]. intros k. apply props_rel; assumption. }
  destruct (beq (node_name n) (byt "Model")); [apply model_rel; assumption|].
  rewrite (kid_string "RelativeFilename" _ _ R). constructor.
Qed.

(** *** Documents *)
Lemma find_saved nm l : nm <> [70; 105; 108; 101; 73; 100] -> find_child nm (saved l) = find_child nm l.
Proof.
  intros H. induction l as [|x l IH]; [reflexivity|]. cbn [saved filter find_child]. fold (saved l). destruct (list_eq_dec Z.eq_dec (node_name x) _) as [E|E].
  - rewrite IH. destruct (beq (node_name x) nm) eqn:B; [|reflexivity]. apply beq_eq in B. congruence.
  - cbn [find_child]. rewrite IH. reflexivity.
Qed.
Lemma nth_rel {A} (R : A -> A -> Prop) l l' : Forall2 R l l' -> forall i, orel R (nth_error l i) (nth_error l' i).
Proof. intros F. induction F; intros [|i]; cbn; try constructor; auto. Qed.
Lemma table_rel l l' : Forall2 (fun x y => to_int64 0 (attr_at_ (node_attrs x) 0) = to_int64 0 (attr_at_ (node_attrs y) 0)) l l' -> forall i t, table_of i l t = table_of i l' t.
Proof. intros F. induction F as [|x y l l' E F IH]; intros i t; cbn [table_of]; [reflexivity|]. rewrite E. apply IH. Qed.
Lemma two_weak {A} (R S : A -> A -> Prop) (P : A -> Prop) l l' : Forall2 R l l' -> Forall P l -> (forall x y, P x -> R x y -> S x y) -> Forall2 S l l'.
Proof. intros F G H. induction F; constructor; inversion G; subst; auto. Qed.

Lemma saved_doc root kids : Forall tidy (saved (node_kids root)) -> whole_ids (kids_at (top root "Objects")) (kids_at (top root "Connections")) -> version root <> 6100 ->
  trees (saved (node_kids root)) kids -> same_doc (read_doc f32 f64 of_int local_of root) (read_doc f32 f64 of_int local_of (Node root_name [] kids)).
Proof.
  intros Ty [W1 W2] V R. set (root' := Node root_name [] kids).
  assert (F : Forall2 nrel (saved (node_kids root)) kids).
  { apply trees_two; [exact Ty|exact R]. }
  assert (TOP : forall n, byt n <> [70; 105; 108; 101; 73; 100] -> orel nrel (top root n) (top root' n)).
  { intros n Hn. unfold top, kid. rewrite <- find_saved by exact Hn. apply child_rel, F. }
  assert (V' : version root' = version root).
  { unfold version. symmetry. assert (K : orel nrel (top root "FBXHeaderExtension") (top root' "FBXHeaderExtension")) by (apply TOP; discriminate).
    apply arel_int; [apply attrs_rel, kid_rel, K|]. intros a E. destruct K as [|y z H]; [discriminate|]. cbn [kid] in E. destruct (nrel_parts _ _ H) as (_ & _ & K).
    pose proof (child_rel (byt "FBXVersion") _ _ K) as C. destruct (find_child (byt "FBXVersion") (node_kids y)) as [c|] eqn:Ec; [|discriminate].
    inversion C as [|? c' Hc]; subst. apply (nrel_whole _ _ Hc); [left; rewrite (child_named _ _ _ Ec); left; reflexivity|]. eapply nth_error_In, E. }
  assert (O : old_version root = false) by (apply Z.eqb_neq, V). assert (O' : old_version root' = false) by (unfold old_version; rewrite V'; exact O).
  assert (ON : Forall2 nrel (object_nodes root) (object_nodes root')).
  { unfold object_nodes. rewrite O, O'. apply kids_rel, TOP. discriminate. }
  assert (TM : forall n, orel nrel (template root n) (template root' n)).
  { intros n. unfold template. pose proof (find_rel nrel (fun x => is_named "ObjectType" x && beq (to_str (attr_at_ (node_attrs x) 0)) n)
      (rev (kids_at (top root "Definitions"))) (rev (kids_at (top root' "Definitions")))) as P.
    destruct P as [|x y H]; [apply rev_rel, kids_rel, TOP; discriminate| |constructor|apply kid_rel; constructor; exact H].
    intros x y H. destruct (nrel_parts _ _ H) as (E & A & _). unfold is_named. rewrite <- E, (arel_str _ _ 0 A) by discriminate. reflexivity. }
  assert (GS : orel nrel (top root "GlobalSettings") (top root' "GlobalSettings")) by (apply TOP; discriminate).
  assert (C : count root = count root') by (unfold count; clear - ON; induction ON; cbn; congruence).
  unfold same_doc. cbn [read_doc fdObjs fdHeld fdConns fdScene fdMats fdCoord]. split; [|split; [|split; [|split; [|split]]]].
  - intros [|i]; cbn [objects].
    + apply model_rel; constructor.
    + destruct (nth_rel _ _ _ ON i) as [|x y H].
      * rewrite <- C. destruct (nth_rel _ _ _ ON (i - count root)) as [|x y H]; [constructor|]. unfold holds. rewrite O, O'. constructor.
      * destruct (nrel_parts _ _ H) as (E & _). rewrite <- E. apply obj_rel; [exact H|apply TM].
  - intros [|i]; cbn [held]; [reflexivity|]. destruct (nth_rel _ _ _ ON i) as [|x y H]; [reflexivity|]. unfold holds. rewrite O, O'. reflexivity.
  - assert (B : by_id root = by_id root').
    { unfold by_id. apply table_rel. unfold object_nodes in *. rewrite O in *. rewrite O' in *. apply (two_weak nrel _ _ _ _ ON W1). intros x y Hx H.
      apply arel_int; [apply (nrel_parts _ _ H)|exact Hx]. }
    assert (CN : Forall2 nrel (kids_at (top root "Connections")) (kids_at (top root' "Connections"))) by (apply kids_rel, TOP; discriminate).
    induction CN as [|x y l l' H CN IH]; [reflexivity|]. inversion W2 as [|? ? Wx Wl]; subst. cbn [flat_map]. rewrite (IH Wl). f_equal.
    destruct (nrel_parts _ _ H) as (_ & A & _). unfold link, found. rewrite O, O', <- B, <- (arel_length _ _ A), (arel_str _ _ 0 A) by discriminate.
    rewrite (arel_int _ _ 1 0 A) by (intros a E; apply Wx; eapply nth_error_In, E). rewrite (arel_int _ _ 2 0 A) by (intros a E; apply Wx; eapply nth_error_In, E). reflexivity.
  - reflexivity.
  - generalize 1%nat. induction ON as [|x y l l' H ON IH]; intros k; [reflexivity|]. cbn [places]. rewrite IH. destruct (nrel_parts _ _ H) as (E & _). unfold is_named. rewrite <- E. reflexivity.
  - assert (ST : forall n d, In (byt n) axes -> setting root n d = setting root' n d).
    { intros n d I. unfold setting, settings_row. pose proof (property_rel _ _ _ _ n GS (TM (byt "GlobalSettings"))) as P.
      destruct (property_row (top root "GlobalSettings") (template root (byt "GlobalSettings")) n) as [r|] eqn:E; inversion P as [|? r' H]; subst; [|reflexivity].
      destruct (nrel_parts _ _ H) as (_ & A & _). apply arel_int; [exact A|]. intros a Ea. apply (nrel_whole _ _ H); [|eapply nth_error_In, Ea]. right.
      assert (NM : to_str (attr_at_ (node_attrs r) 0) = byt n).
      { unfold property_row in E. destruct (row (top root "GlobalSettings") n) eqn:E1; [injection E as <-; eapply row_name, E1|eapply row_name, E]. }
      exists (byt n). split; [|exact I]. destruct A as [_ U]. unfold attr_at_ in NM. specialize (U 0%nat). destruct (nth_error (node_attrs r) 0) as [x|].
      - specialize (U x eq_refl). destruct x; cbn in NM, U; try contradiction; try (rewrite <- NM in I; cbn in I; intuition discriminate). rewrite NM. reflexivity.
      - rewrite <- NM in I. cbn in I. intuition discriminate. }
    unfold coord, sign. rewrite !ST by (cbn; tauto). rewrite !(props_rel _ _ _ _ _ GS (TM (byt "GlobalSettings"))). reflexivity.
Qed.
End Save.

(** *** Names of bones *)
Lemma bone_names n : FbxSceneSpec.plain n -> prefix "Model::" (n ++ "::Model")%string = false ->
  bone_name (FbxSceneSpec.text_name n) = n /\ bone_name (FbxSceneSpec.binary_name n) = (n ++ "::Model")%string.
Proof.
  intros P A. split.
  - unfold bone_name, FbxSceneSpec.text_name. rewrite <- (FbxObjects.append_nil ("Model::" ++ n)%string), FbxObjects.shown_plain.
    + cbn [shown_name]. rewrite FbxObjects.append_nil. unfold cut_prefix, MqoDoc.strip_prefix. rewrite FbxObjects.prefix_app.
      cbn. now rewrite Nat.sub_0_r, FbxObjects.substring_whole.
    + intro I. cbn in I. repeat (destruct I as [I|I]; [discriminate|]). exact (P I).
  - unfold bone_name, FbxSceneSpec.binary_name. rewrite FbxObjects.shown_plain by exact P. cbn [shown_name Ascii.eqb Bool.eqb andb append]. unfold cut_prefix, MqoDoc.strip_prefix.
    rewrite A. reflexivity.
Qed.
