(** C28: FBX text written by the tool is read back. *)
From Coq Require Import List ZArith Bool Lia.
From Verif Require Import Model.Codec Model.Fbx Model.FbxText Spec.FbxTextSpec.
From Verif Require Import Proofs.FbxTextProofs Proofs.FbxTextTop.
Import ListNotations.
Open Scope Z_scope.

(** The claim without restrictions: any tree whose names are identifiers comes back. *)
Definition C28_full : Prop :=
  forall parse_float to_i32 fmt32 fmt64 seek inflate kids,
    int_floats parse_float to_i32 -> Forall (fun n => ident (node_name n)) kids ->
    parse_any parse_float to_i32 seek inflate (write_text fmt32 fmt64 (Node root_name [] kids)) =
    FTree (Node root_name [] kids).

(** Every tree in the domain of the notation comes back unchanged, whatever the nesting. *)
Theorem C28_exact : forall parse_float to_i32 fmt32 fmt64 seek inflate kids,
  int_floats parse_float to_i32 ->
  Forall (exact_tree parse_float fmt64) kids -> saved kids = kids ->
  parse_any parse_float to_i32 seek inflate (write_text fmt32 fmt64 (Node root_name [] kids)) =
  FTree (Node root_name [] kids).
Proof.
  exact (fun pf ti f32 f64 seek infl kids HI H HS =>
    eq_trans (write_any pf ti f32 f64 seek infl _)
      (write_read pf ti f32 f64 (Node root_name [] kids) kids HI
        (eq_ind_r (fun l => trees_as pf f32 f64 l kids) (exact_all pf f32 f64 kids H) HS))).
Qed.
Print Assumptions C28_exact.

(** What every other attribute turns into: integers of any width into 64-bit integers,
    integral floats into integers, class-qualified names into the other order, integer
    arrays into 32-bit ones; empty arrays disappear. *)
Theorem C28_image_partial : forall parse_float to_i32 fmt32 fmt64 seek inflate root kids,
  int_floats parse_float to_i32 ->
  trees_as parse_float fmt32 fmt64 (saved (node_kids root)) kids ->
  parse_any parse_float to_i32 seek inflate (write_text fmt32 fmt64 root) = FTree (Node root_name [] kids).
Proof.
  exact (fun pf ti f32 f64 seek infl root kids HI H =>
    eq_trans (write_any pf ti f32 f64 seek infl root) (write_read pf ti f32 f64 root kids HI H)).
Qed.
Print Assumptions C28_image_partial.

(** A quotation mark in a string: the file that was just written is rejected. *)
Definition quoted : node := Node [65] [AStr [97; 34; 98]] [].
Theorem C28_quote_rejected : forall parse_float to_i32 fmt32 fmt64 seek inflate,
  parse_any parse_float to_i32 seek inflate (write_text fmt32 fmt64 (Node root_name [] [quoted])) = FErr.
Proof. intros. vm_compute. reflexivity. Qed.
Print Assumptions C28_quote_rejected.

(** Raw data: likewise. *)
Theorem C28_raw_rejected : forall parse_float to_i32 fmt32 fmt64 seek inflate,
  parse_any parse_float to_i32 seek inflate
    (write_text fmt32 fmt64 (Node root_name [] [Node [65] [ARaw [1; 2]] []])) = FErr.
Proof. intros. vm_compute. reflexivity. Qed.
Print Assumptions C28_raw_rejected.

(** A float printed with an exponent, such as a million (1e+06) or a hundred-thousandth (1e-05): likewise. *)
Theorem C28_exponent_rejected : forall parse_float to_i32 fmt32 fmt64 seek inflate b,
  fmt64 b = [49; 101; 43; 48; 54] \/ fmt64 b = [49; 101; 45; 48; 53] ->
  parse_any parse_float to_i32 seek inflate
    (write_text fmt32 fmt64 (Node root_name [] [Node [65] [AF64 b] []])) = FErr.
Proof.
  intros pf ti f32 f64 seek infl b H. rewrite write_any. unfold write_text.
  cbn [node_kids filter node_name beq file_id Z.eqb Pos.eqb andb negb flat_map dump indent repeat Nat.mul app
       dump_attrs attr_len Z.ltb Z.compare attr_text].
  destruct H as [-> | ->]; vm_compute; reflexivity.
Qed.
Print Assumptions C28_exponent_rejected.

Definition id_float (s : bytes) : Z * bool :=
  match parse_int 64 s with
  | Some v => (v, true)
  | None => match digits_val 0 (removelast (removelast s)) with Some v => (v, true) | None => (0, false) end
  end.
Lemma id_float_ok : int_floats id_float (fun z => z).
Proof.
  intros s v H R. unfold id_float. unfold int32 in R. rewrite (parse_decimal 64 s v H) by lia. reflexivity.
Qed.

Theorem C28_refuted : ~ C28_full.
Proof.
  intros H.
  specialize (H id_float (fun z => z) show show None (fun _ _ => (0, InfHeader)) [quoted] id_float_ok).
  rewrite C28_quote_rejected in H. assert (FErr = FTree (Node root_name [] [quoted])) as E; [|discriminate].
  apply H. constructor; [|constructor]. exists 65, []. repeat split. left. lia. constructor.
Qed.
Print Assumptions C28_refuted.

(** A document with nested nodes, negative and large integers, strings, floats and arrays. *)
Definition half (b : Z) : bytes := show b ++ [46; 53].
Definition sample : list node :=
  [Node [79; 98; 106; 101; 99; 116; 115] []
     [Node [71; 101; 111] [AI64 (-9223372036854775808); AStr [77; 101; 115; 104; 32; 49]; AF64 7]
        [Node [86] [AF64s [1; 0; 3]] []; Node [73] [AI32s [0; 1; -3]; AI64 4] []; Node [101; 45; 49] [] []]];
   Node [67; 95] [AStr []] []].
Example C28_sample : Forall (exact_tree id_float half) sample /\ saved sample = sample.
Proof.
  assert (D : forall z, 0 <= z <= 9 -> number (half z) /\ pointed (half z) /\ id_float (half z) = (z, true)).
  { intros z Hz. assert (E : z = 0 \/ z = 1 \/ z = 2 \/ z = 3 \/ z = 4 \/ z = 5 \/ z = 6 \/ z = 7 \/ z = 8 \/ z = 9) by lia.
    repeat (destruct E as [-> | E]; [split; [eexists _, _; split; [reflexivity|split; [left; unfold digit_char; lia|]];
      repeat constructor; unfold digit_char; lia|split; [right; left; reflexivity|reflexivity]]|]).
    subst. split; [eexists _, _; split; [reflexivity|split; [left; unfold digit_char; lia|]];
      repeat constructor; unfold digit_char; lia|split; [right; left; reflexivity|reflexivity]]. }
  split; [|reflexivity].
  assert (P : forall c r, letter c -> Forall (fun c => letter c \/ digit_char c \/ c = 45) r -> ident (c :: r)).
  { intros c r Hc Hr. exists c, r. auto. }
  assert (A1 : exact_attr id_float half (AF64s [1; 0; 3])).
  { split; [split; [discriminate|cbn; lia]|]. split; [apply Exists_cons_hd; apply D; lia|].
    repeat (apply Forall_cons; [split; [apply D; lia|reflexivity]|]). apply Forall_nil. }
  assert (A2 : exact_attr id_float half (AI32s [0; 1; -3])).
  { split; [split; [discriminate|cbn; lia]|]. repeat (apply Forall_cons; [unfold int32; lia|]). apply Forall_nil. }
  assert (A3 : exact_attr id_float half (AF64 7)) by (apply D; lia).
  assert (A4 : exact_attr id_float half (AStr [77; 101; 115; 104; 32; 49])).
  { cbn. unfold plain. repeat (apply Forall_cons; [lia|]). apply Forall_nil. }
  assert (A5 : forall v, int64 v -> exact_attr id_float half (AI64 v)) by auto.
  assert (A6 : exact_attr id_float half (AStr [])) by apply Forall_nil.
  unfold sample.
  repeat first [apply Forall_nil | apply Forall_cons | apply et_node | assumption
    | apply A5; unfold int64; lia
    | apply P; [unfold letter; lia|] | unfold letter, digit_char; lia | unfold plain; lia ].
Qed.
Example C28_sample_read :
  parse_any id_float (fun z => z) None (fun _ _ => (0, InfHeader)) (write_text show half (Node root_name [] sample)) =
  FTree (Node root_name [] sample).
Proof. vm_compute. reflexivity. Qed.

(** A class-qualified name, a 32-bit integer and an empty array. *)
Example C28_changed :
  parse_any id_float (fun z => z) None (fun _ _ => (0, InfHeader))
    (write_text show half (Node root_name [] [Node [77] [AI32 5; AStr [97; 0; 1; 77; 98]; AI32s []] []])) =
  FTree (Node root_name [] [Node [77] [AI64 5; AStr [77; 98; 58; 58; 97]] []]).
Proof. vm_compute. reflexivity. Qed.
