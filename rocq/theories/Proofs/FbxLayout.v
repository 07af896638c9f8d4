(** Every node tree within the format's limits has a layout, and the two kinds of reader
    agree on files whose compressed arrays are consumed completely. *)
From Coq Require Import List ZArith Bool Lia ZifyBool ZifyNat.
From Verif.Model Require Import Codec Fbx.
From Verif.Spec Require Import FbxSpec.
From Verif.Proofs Require Import CodecLemmas FbxProofs FbxTotal.
Import ListNotations.
Local Open Scope Z_scope.

Section NodeInd.
Variable P : node -> Prop.
Hypothesis H : forall name attrs kids, Forall P kids -> P (Node name attrs kids).
Fixpoint node_induct (n : node) : P n :=
  match n with
  | Node name attrs kids =>
      H name attrs kids ((fix go (l : list node) : Forall P l :=
        match l with [] => Forall_nil P | k :: r => Forall_cons k (node_induct k) (go r) end) kids)
  end.
End NodeInd.

Definition lay_attr (a : attr) : bytes :=
  match a with
  | AI8 v => 66 :: le 1 v | AU8 v => 67 :: le 1 v | AI16 v => 89 :: le 2 v | AI32 v => 73 :: le 4 v
  | AI64 v => 76 :: le 8 v | AF32 v => 70 :: le 4 v | AF64 v => 68 :: le 8 v
  | AStr s => 83 :: le 4 (len s) ++ s | ARaw s => 82 :: le 4 (len s) ++ s
  | AInt _ | ANil => []
  | _ => match array_of a with
         | Some (typ, w, l, _) =>
             typ :: le 4 (Z.of_nat (length l)) ++ le 4 0 ++ le 4 (len (flat_map (le w) l)) ++ flat_map (le w) l
         | None => []
         end
  end.
Fixpoint lay (wide : bool) (base : Z) (n : node) {struct n} : bytes :=
  let 'Node name attrs kids := n in
  let ab := flat_map lay_attr attrs in
  let b0 := base + Z.of_nat (3 * num_w wide + 1) + len name + len ab in
  let kb := (fix go (b : Z) (l : list node) {struct l} : bytes :=
    match l with [] => [] | k :: r => lay wide b k ++ go (b + len (lay wide b k)) r end) b0 kids in
  let term := match kids with [] => [] | _ => null_record wide end in
  le (num_w wide) (b0 + len kb + len term) ++ le (num_w wide) (Z.of_nat (length attrs)) ++ le (num_w wide) (len ab) ++
  le 1 (len name) ++ name ++ ab ++ kb ++ term.
Fixpoint lays (wide : bool) (b : Z) (l : list node) : bytes :=
  match l with [] => [] | k :: r => lay wide b k ++ lays wide (b + len (lay wide b k)) r end.
Lemma lay_node wide base name attrs kids :
  lay wide base (Node name attrs kids) =
  (let ab := flat_map lay_attr attrs in
   let b0 := base + Z.of_nat (3 * num_w wide + 1) + len name + len ab in
   let kb := lays wide b0 kids in
   let term := match kids with [] => [] | _ => null_record wide end in
   le (num_w wide) (b0 + len kb + len term) ++ le (num_w wide) (Z.of_nat (length attrs)) ++ le (num_w wide) (len ab) ++
   le 1 (len name) ++ name ++ ab ++ kb ++ term).
Proof.
  assert (E : forall kids b, (fix go (b : Z) (l : list node) {struct l} : bytes :=
    match l with [] => [] | k :: r => lay wide b k ++ go (b + len (lay wide b k)) r end) b kids = lays wide b kids).
  { clear. induction kids as [|k r IH]; intros b; [reflexivity|]. cbn [lays]. rewrite IH. reflexivity. }
  cbn [lay]. rewrite E. reflexivity.
Qed.

Lemma len_app a b : len (a ++ b) = len a + len b.
Proof. apply blen_app. Qed.

Lemma len_le k v : len (le k v) = Z.of_nat k.
Proof. apply blen_le. Qed.

Section Packed.
Variable packed : bytes -> bytes -> Prop.

Lemma lay_attr_ok a : attr_ok a -> attr_at packed a (lay_attr a).
Proof.
  destruct a; cbn [attr_ok lay_attr array_of]; intros H; try contradiction; try (constructor; exact H);
    destruct H as (H1 & H2 & H3); eapply at_raw; cbn [array_of]; eauto.
Qed.
Lemma lay_attrs_ok l : Forall attr_ok l -> attrs_at packed l (flat_map lay_attr l).
Proof.
  induction 1 as [|a l Ha _ IH]; [constructor|]. cbn [flat_map]. constructor; [apply lay_attr_ok, Ha|exact IH].
Qed.

Lemma offset_le wide a b : 0 <= a <= b -> offset_ok wide b -> offset_ok wide a.
Proof. unfold offset_ok. destruct wide; lia. Qed.

Lemma lay_ok wide n : tree_ok n -> forall base, 0 <= base ->
  offset_ok wide (base + len (lay wide base n)) -> node_at packed wide base n (lay wide base n).
Proof.
  induction n as [name attrs kids IH] using node_induct. intros Hok base Hb Hoff.
  cbn [tree_ok] in Hok. destruct Hok as (Hn & Ha & Hk).
  assert (HK : forall kids, Forall (fun n => tree_ok n -> forall base, 0 <= base ->
      offset_ok wide (base + len (lay wide base n)) -> node_at packed wide base n (lay wide base n)) kids ->
      (fix go (l : list node) : Prop := match l with [] => True | k :: r => tree_ok k /\ go r end) kids ->
      forall b, 0 <= b -> offset_ok wide (b + len (lays wide b kids)) -> nodes_at packed wide b kids (lays wide b kids)).
  { clear. induction 1 as [|k r Hk _ IHr]; intros Hok b Hb Hoff; [constructor|].
    destruct Hok as (Hok1 & Hok2). cbn [lays] in *. rewrite len_app in Hoff.
    assert (0 <= len (lay wide b k) /\ 0 <= len (lays wide (b + len (lay wide b k)) r)) by (unfold len; lia).
    constructor.
    - apply Hk; auto. eapply offset_le; [|exact Hoff]. lia.
    - apply IHr; auto; [lia|]. rewrite <- Z.add_assoc. exact Hoff. }
  rewrite lay_node in *. cbv zeta in *.
  set (ab := flat_map lay_attr attrs) in *.
  set (b0 := base + Z.of_nat (3 * num_w wide + 1) + len name + len ab) in *.
  set (kb := lays wide b0 kids) in *.
  set (term := match kids with [] => [] | _ => null_record wide end) in *.
  rewrite !len_app, !len_le in Hoff.
  assert (Hpos : 0 <= len name /\ 0 <= len ab /\ 0 <= len kb /\ 0 <= len term) by (unfold len; lia).
  assert (Hfin : offset_ok wide (b0 + len kb + len term)).
  { replace (b0 + len kb + len term) with
      (base + (Z.of_nat (num_w wide) + (Z.of_nat (num_w wide) + (Z.of_nat (num_w wide) +
         (Z.of_nat 1 + (len name + (len ab + (len kb + len term)))))))) by (unfold b0; lia).
    exact Hoff. }
  apply na_node; auto.
  - apply lay_attrs_ok, Ha.
  - apply HK; auto; [unfold b0; lia|]. eapply offset_le; [|exact Hfin]. unfold b0 in *. fold kb. lia.
  - unfold term. destruct kids; auto.
Qed.
Lemma lays_ok wide kids : Forall tree_ok kids -> forall base, 0 <= base ->
  offset_ok wide (base + len (lays wide base kids)) -> nodes_at packed wide base kids (lays wide base kids).
Proof.
  induction 1 as [|k r Hk _ IHr]; intros b Hb Hoff; [constructor|].
  cbn [lays] in *. rewrite len_app in Hoff.
  assert (0 <= len (lay wide b k) /\ 0 <= len (lays wide (b + len (lay wide b k)) r)) by (unfold len; lia).
  constructor.
  - apply lay_ok; auto. eapply offset_le; [|exact Hoff]. lia.
  - apply IHr; auto; [lia|]. rewrite <- Z.add_assoc. exact Hoff.
Qed.
Definition lay_file (res : bytes) (ver : Z) (kids : list node) : bytes :=
  file_head res ver ++ lays (7500 <=? ver) 27 kids ++ null_record (7500 <=? ver).
Lemma lay_file_ok res ver kids : length res = 2%nat -> fits_u 4 ver -> Forall tree_ok kids ->
  len (lay_file res ver kids) < 2 ^ 32 -> file_at packed ver kids (lay_file res ver kids).
Proof.
  intros Hr Hv Hk Hl. unfold lay_file in *. constructor; auto.
  apply lays_ok; auto; [lia|]. rewrite !len_app in Hl.
  assert (len (file_head res ver) = 27).
  { unfold len, file_head. rewrite !app_length, Hr, le_length. reflexivity. }
  assert (0 <= len (lays (7500 <=? ver) 27 kids) /\ 0 <= len (null_record (7500 <=? ver))) by (unfold len; lia).
  unfold offset_ok. destruct (7500 <=? ver); lia.
Qed.
End Packed.

(** Layouts only get weaker when more zlib streams count as good. *)
Section Mono.
Variables P Q : bytes -> bytes -> Prop.
Hypothesis PQ : forall a b, P a b -> Q a b.
Lemma attr_mono a b : attr_at P a b -> attr_at Q a b.
Proof. intros H; destruct H; try (constructor; assumption); [eapply at_raw|eapply at_zip]; eauto. Qed.
Lemma attrs_mono a b : attrs_at P a b -> attrs_at Q a b.
Proof. induction 1; constructor; auto using attr_mono. Qed.
Lemma nodes_mono wide : (forall base n b, node_at P wide base n b -> node_at Q wide base n b) /\
  (forall base l b, nodes_at P wide base l b -> nodes_at Q wide base l b).
Proof.
  apply (node_at_both P wide (fun base n b => node_at Q wide base n b) (fun base l b => nodes_at Q wide base l b)).
  - intros. constructor; auto using attrs_mono.
  - intros. constructor.
  - intros. constructor; auto.
Qed.
Lemma file_mono ver kids b : file_at P ver kids b -> file_at Q ver kids b.
Proof. intros H; destruct H. constructor; auto. apply nodes_mono; assumption. Qed.
End Mono.

Lemma parse_both inflate m ver kids data :
  file_at (unpacks None inflate) ver kids data -> len data <= m ->
  parse_fbx None inflate data = FTree (tree_of kids) /\ parse_fbx (Some m) inflate data = FTree (tree_of kids).
Proof.
  intros H Hm. split.
  - apply (parse_file None inflate ver); [exact H|exact I].
  - apply (parse_file (Some m) inflate ver); [|exact Hm].
    eapply file_mono; [|exact H]. intros a b (u & E & _). exists u. split; [exact E|exact I].
Qed.
