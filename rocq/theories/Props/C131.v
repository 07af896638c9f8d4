(** C131: parts of an MQO text this program does not know change nothing. *)
From Coq Require Import String Ascii List ZArith Bool Arith Lia.
From Verif.Model Require Import Num Vec Matrix Mqo MqoDoc MqoText MqoLex.
From Verif.Spec Require Import TextSpec SkipSpec.
From Verif.Proofs Require Import MqoTextProofs MqoTextMore MqoSkip.
From Verif Require Props.C16.
Import ListNotations.
Local Open Scope string_scope.
Local Open Scope list_scope.

(** The text of a document with something ignorable after the header and after every chunk, and anything after the end. *)
Definition annotated {T} {N : Num T} {X : TextNum T} (d : text_doc T) (c0 c1 c2 c3 : list tok) (cs : list (list tok)) (c4 : list tok) : list tok :=
  toks_of w_header ++ c0 ++ toks_of (opt (tdInclude d) w_include) ++ c1 ++ toks_of (opt (tdScene d) w_scene) ++ c2 ++
  toks_of (w_materials (dMaterials (tdDoc d))) ++ c3 ++
  concat (map (fun p => toks_of (w_object (fst p)) ++ snd p) (combine (dObjects (tdDoc d)) cs)) ++ TId "Eof" :: c4.

(** For every document of the format: notes, unknown chunks and thumbnails between the chunks are passed over, and the
    document is read as without them.  The notes must not contain a name of a chunk as an identifier.
    Full claim: every unknown chunk with balanced brackets. *)
Theorem C131_chunks_partial (T : Type) (N : Num T) (X : TextNum T) (d : text_doc T) c0 c1 c2 c3 cs c4 :
  text_dom plain plain plain d -> length cs = length (dObjects (tdDoc d)) ->
  (forall c, In c (c0 :: c1 :: c2 :: c3 :: cs) -> ignorable c) ->
  parse_toks (annotated d c0 c1 c2 c3 cs c4) = Some (kept_doc d) /\
  parse_toks (annotated d c0 c1 c2 c3 cs c4) = parse_toks (toks_of (write_mqo d)).
Proof.
  intros D L I. rewrite parse_write by exact D. split; exact (parse_notes d c0 c1 c2 c3 cs c4 D L I).
Qed.
Print Assumptions C131_chunks_partial.

(** Blocks are passed over to the bracket that closes them, whatever blocks they contain. *)
Theorem C131_block ts : balanced ts -> forall F l r, length ts < F ->
  exists l', skip_block F (St l (ts ++ TCh "}" :: r)) = Some (St l' r).
Proof. exact (skip_balanced ts). Qed.
Print Assumptions C131_block.

(** In every block with known items (objects, scenes, materials, vertex attributes): an unknown item, with a block or without
    one, changes neither the value read nor where the reading goes on. *)
Theorem C131_items_partial (A : Type) F (h : handlers A) it n a l r x q : unknown_item h it -> length it < F ->
  (forall l, exists l2, obj_loop F n h a (St l r) = Some (x, St l2 q)) ->
  exists l2, obj_loop F (length it + n) h a (St l (it ++ r)) = Some (x, St l2 q).
Proof. exact (skip_item_value F h it n a l r x q). Qed.
Print Assumptions C131_items_partial.

(** Unknown attributes of materials and faces are passed over, if their value has no closing bracket. *)
Theorem C131_attributes_partial (A : Type) F n (h : handlers A) k ps l a r y : h k = None -> length ps < F ->
  (forall p, In p ps -> match p with TNL => False | TEOF => False | t => text t <> ")" end) ->
  at_eol (St l r) = false ->
  attrs_loop F n h l a (St l r) = Some y ->
  attrs_loop F (S n) h l a (St l (TId k :: TCh "(" :: ps ++ TCh ")" :: r)) = Some y.
Proof.
  intros H L P E Q. pose proof (skip_attribute F n h k ps l a r y H L P) as R. unfold attrs_after in R. rewrite E in R.
  exact (R Q).
Qed.
Print Assumptions C131_attributes_partial.

(** A plugin file without a name is no plugin file. *)
Theorem C131_no_include (T : Type) (N : Num T) (X : TextNum T) (d : text_doc T) : text_dom plain plain plain d -> tdInclude d = None ->
  parse_toks (toks_of w_header ++ [TId "IncludeXml"; TStr ""; TNL] ++ toks_of (opt (tdScene d) w_scene) ++
    toks_of (w_materials (dMaterials (tdDoc d))) ++ toks_of (concat (map w_object (dObjects (tdDoc d)))) ++ [TId "Eof"; TNL]) = Some (kept_doc d).
Proof. exact (parse_no_include d). Qed.
Print Assumptions C131_no_include.

Local Open Scope Z_scope.
Notation num s := (TNum true s).
(** A background image, a thumbnail with a block in its block, and a note. *)
Definition image : list tok := [TId "BackImage"; TCh "{"; TNL; TId "front"; TStr "a.png"; num "0"; num "1"; TNL; TCh "}"; TNL].
Definition thumb : list tok :=
  [TId "Thumbnail"; num "128"; num "128"; num "24"; TId "rgb"; TId "raw"; TCh "{"; TNL; TId "ff00"; TCh "{"; TId "Object"; TCh "}"; num "12"; TNL; TCh "}"; TNL].
Lemma image_ignorable : ignorable image.
Proof.
  unfold image. repeat (apply ig_tok; [split; [discriminate|]; intros w E; try discriminate E; injection E as <-;
    unfold known_chunks; cbn; intuition discriminate |]). constructor.
Qed.
Lemma thumb_ignorable : ignorable thumb.
Proof.
  apply (ig_thumb [num "128"; num "128"; num "24"; TId "rgb"; TId "raw"] [TNL; TId "ff00"; TCh "{"; TId "Object"; TCh "}"; num "12"; TNL] [TNL]).
  - reflexivity.
  - intros w I; cbn in I; intuition; subst; discriminate.
  - do 2 (apply bal_tok; [discriminate..|]). apply (bal_block [TId "Object"]).
    + apply bal_tok; [discriminate..|]. constructor.
    + do 2 (apply bal_tok; [discriminate..|]). constructor.
  - apply ig_tok; [split; [discriminate|]; intros; discriminate | constructor].
Qed.
(** The document of C16 with them. *)
Example C131_example :
  parse_toks (annotated C16.sample image thumb (image ++ thumb) [] [image; thumb] [TId "Object"]) = Some (kept_doc C16.sample).
Proof. vm_compute. reflexivity. Qed.
(** Items of objects. *)
Example C131_items_example :
  unknown_item (object_handlers (T := Z) 50) [TId "weit"; num "3"; TCh "{"; TNL; TId "vertex"; num "1"; TNL; TCh "}"] /\
  exists l2, obj_loop 50 5 (object_handlers 50) (new_object "o") (St 1 [TId "depth"; num "4"; TNL; TCh "}"; TNL]) =
    Some (so_depth (new_object "o") 4, St l2 [TNL]).
Proof.
  split.
  - apply (un_block _ [TId "weit"; num "3"] [TNL; TId "vertex"; num "1"; TNL]).
    + intros t I; cbn in I; intuition; subst; (split; [discriminate|]); (split; [discriminate|]); (split; [discriminate|]); right; reflexivity.
    + repeat (apply bal_tok; [discriminate..|]). constructor.
  - eexists. vm_compute. reflexivity.
Qed.
Example C131_attributes_example :
  face_handlers (T := Z) 3 "COL" = None /\
  attrs_loop 50 5 (face_handlers 3) 1 (mkFace 0 [] 0 [] []) (St 1 [TId "M"; TCh "("; num "2"; TCh ")"; TNL]) =
    Some (mkFace 0 [] 2 [] [], St 1 [TNL]) /\
  attrs_loop 50 6 (face_handlers 3) 1 (mkFace 0 [] 0 [] []) (St 1 [TId "COL"; TCh "("; num "7"; num "8"; TCh ")"; TId "M"; TCh "("; num "2"; TCh ")"; TNL]) =
    Some (mkFace 0 [] 2 [] [], St 1 [TNL]).
Proof. repeat split. Qed.

(** Unknown chunks are not passed over as blocks: a chunk inside of one is read as a chunk of the document. *)
Theorem C131_chunk_refuted : exists (d : text_doc Z) name b,
  text_domain d /\ ~ In name known_chunks /\ balanced b /\
  parse_toks (annotated d (TId name :: TCh "{" :: b ++ [TCh "}"]) [] [] [] [] []) <> Some (kept_doc d).
Proof.
  exists (mkTD None None (mkDocument [] [])), "Backup", [TNL; TId "Object"; TStr "old"; TCh "{"; TNL; TCh "}"; TNL].
  split; [split; [intros f [=] | split; constructor]|]. split; [cbn; intuition discriminate|]. split.
  - do 3 (apply bal_tok; [discriminate..|]). apply (bal_block [TNL] [TNL]); (apply bal_tok; [discriminate..|]); constructor.
  - vm_compute. discriminate.
Qed.
Print Assumptions C131_chunk_refuted.

(** An argument of an unknown item with the name of a known one is read as that one. *)
Theorem C131_word_refuted : exists (ws r : list tok) (o : object Z) o',
  (forall l, obj_loop 50 9 (object_handlers 50) (new_object "o") (St l r) = Some (o, St (S l) [])) /\
  object_handlers (T := Z) 50 "attr" = None /\ ws = [TId "attr"; TId "depth"; TNL] /\
  obj_loop 50 9 (object_handlers 50) (new_object "o") (St 1 (ws ++ r)) = Some (o', St 3 []) /\ o <> o'.
Proof.
  exists [TId "attr"; TId "depth"; TNL], [TId "visible"; num "0"; TNL; TCh "}"]. eexists; eexists.
  split; [intro l; reflexivity|]. split; [reflexivity|]. split; [reflexivity|]. split; [reflexivity|]. discriminate.
Qed.
Print Assumptions C131_word_refuted.

(** Brackets in the value of an unknown attribute spoil the attribute after it. *)
Theorem C131_nested_refuted : exists (r : list tok) (f f' : face Z),
  attrs_loop 50 9 (face_handlers 3) 1 (mkFace 0 [] 0 [] []) (St 1 r) = Some (f, St 1 [TNL]) /\
  attrs_loop 50 9 (face_handlers 3) 1 (mkFace 0 [] 0 [] [])
    (St 1 (TId "COL" :: TCh "(" :: [TCh "("; num "7"; TCh ")"] ++ TCh ")" :: r)) = Some (f', St 1 [TNL]) /\ f <> f'.
Proof.
  exists [TId "M"; TCh "("; num "2"; TCh ")"; TNL]. eexists; eexists. split; [reflexivity|]. split; [reflexivity|]. discriminate.
Qed.
Print Assumptions C131_nested_refuted.
