(** C19: PMX files written are read back identically. *)
From Coq Require Import List ZArith Bool.
From Verif.Model Require Import Num Vec Codec Pmx.
From Verif.Spec Require Import PmxSpec.
From Verif.Proofs Require Import CodecLemmas PmxProofs.
Import ListNotations.
Open Scope Z_scope.

(** For every document that fits its header (any mixture of index widths), [WritePMX]
    succeeds and [Parse] returns the document, with the format tag "PMX " and the encoding
    byte 1 the writer always stores; the four bytes left unread are the trailing zero count.
    [utf16] is an arbitrary UTF-16 decoder, [fsub1 w] the float32 value of [1 - w]. *)
Theorem C19_pmx_round_trip : forall utf16 fsub1 d,
  doc_ok fsub1 d = true -> joint_widths_agree d ->
  exists bs, write_pmx d = Some bs /\ parse utf16 fsub1 bs = ROk (as_written d) [0; 0; 0; 0].
Proof. exact pmx_round_trip. Qed.
Print Assumptions C19_pmx_round_trip.

(** Whatever bytes are loaded, if loading succeeds then saving and loading again returns the
    same document.  No assumption on the file is made beyond having a complete header, joint
    widths that agree, and text that fits the length field once converted from UTF-16. *)
Theorem C19_pmx_resave_stable : forall utf16 fsub1 bs d rest,
  Forall byte bs -> parse utf16 fsub1 bs = ROk d rest ->
  (8 <= length (h_info (d_header d)))%nat ->
  (wd (d_header d) AttrStringEncoding <> 0 \/ forall b, str_ok (utf16 b) = true) ->
  joint_widths_agree d ->
  exists bs', write_pmx d = Some bs' /\ parse utf16 fsub1 bs' = ROk (as_written d) [0; 0; 0; 0].
Proof. exact pmx_resave. Qed.
Print Assumptions C19_pmx_resave_stable.

(** A document with every kind of element; index widths 1, 2 and 4 are all in use. *)
Definition half := 1056964608. (* 0.5f *)
Definition ex_fsub1 (w : Z) : Z := if w =? half then half else 0.
Definition v3 a b c : vec3 Z := mkV3 a b c.
Definition v4 a b c d : vec4 Z := mkV4 a b c d.
Definition ex_doc : document :=
  mkDoc (mkHeader pmx_magic 1073741824 [0; 1; 4; 1; 2; 2; 1; 2])
    [104; 105] [] [227; 129; 130] []
    [ mkVertex (v3 1 2 3) (v3 4 5 6) (mkV2 7 8) [v4 1 2 3 4] 9 [3] [f32_one];
      mkVertex (v3 1 2 3) (v3 4 5 6) (mkV2 7 8) [v4 1 2 3 4] 9 [0; -1] [half; half];
      mkVertex (v3 1 2 3) (v3 4 5 6) (mkV2 7 8) [v4 1 2 3 4] 9 [0; 1; 2; 300] [1; 2; 3; 4];
      mkVertex (v3 1 2 3) (v3 4 5 6) (mkV2 7 8) [v4 1 2 3 4] 9 [0; 1]
        [half; half; 1; 2; 3; 4; 5; 6; 7; 8; 9] ]
    [ mkFace 0 1 2; mkFace 70000 3000000000 5 ]
    [ [97; 46; 98]; [] ]
    [ mkMaterial [109] [] (v4 1 2 3 4) (v3 1 2 3) 5 (v3 3 2 1) 3 (v4 4 3 2 1) 9 (-1) 1 1 0 (-1) [120] 6;
      mkMaterial [109] [] (v4 1 2 3 4) (v3 1 2 3) 5 (v3 3 2 1) 3 (v4 4 3 2 1) 9 (-1) 1 1 1 9 [120] 6 ]
    [ mkBone [98] [66] (v3 1 2 3) (-1) 0 8224 (-1) (v3 9 9 9) 0 0 vec3_0 2 40 7
        [mkLink 1 true (v3 1 1 1) (v3 0 0 0); mkLink 0 false vec3_0 vec3_0];
      mkBone [99] [] (v3 1 2 3) 0 2 3841 1 vec3_0 0 half (v3 1 0 0) 0 0 0 [] ]
    [ mkMorph [49] [] 1 0 [mkMG 1 half] [] [] [];
      mkMorph [50] [] 1 1 [] [mkMV 70000 (v3 1 2 3); mkMV 2 (v3 1 2 3)] [] [];
      mkMorph [51] [] 1 3 [] [] [mkMU 1 (v4 1 2 3 4)] [];
      mkMorph [52] [] 1 8 [] [] []
        [mkMM (-1) 1 (v4 1 2 3 4) (v3 1 2 3) 5 (v3 1 2 3) (v4 1 2 3 4) 6 (v4 1 2 3 4) (v4 1 2 3 4) (v4 1 2 3 4)] ]
    [ mkRB [114] [] (-1) (-1) (-2) 1 (v3 1 2 3) (v3 1 2 3) (v3 1 2 3) 1 2 3 4 5 2 ]
    [ mkJoint [106] [] 0 0 (-1) (v3 1 2 3) (v3 1 2 3) (v3 1 2 3) (v3 1 2 3) (v3 1 2 3) (v3 1 2 3) (v3 1 2 3) (v3 1 2 3) ].

Example C19_ex_doc_fits : doc_ok ex_fsub1 ex_doc = true /\ joint_widths_agree ex_doc.
Proof. split; [vm_compute; reflexivity | right; reflexivity]. Qed.

Example C19_ex_resave_hyps : exists bs d,
  forallb byte_ok bs = true /\ parse (fun b => b) ex_fsub1 bs = ROk d [0; 0; 0; 0] /\
  length (d_vertexes d) = 4%nat /\ length (h_info (d_header d)) = 8%nat /\
  wd (d_header d) AttrStringEncoding <> 0 /\ joint_widths_agree d.
Proof.
  exists (match write_pmx ex_doc with Some b => b | None => [] end), (as_written ex_doc).
  repeat split; try (vm_compute; congruence). right; reflexivity.
Qed.
