(** C55: PMD files are decoded field by field. *)
From Coq Require Import List ZArith Bool.
From Verif.Model Require Import Num Vec Codec Pmx Pmd.
From Verif.Spec Require Import PmxSpec VmdSpec PmdSpec.
From Verif.Proofs Require Import PmdProofs.
Import ListNotations.
Open Scope Z_scope.

(** Whatever follows the morphs; [sjis] is the Shift-JIS decoder, [fdiv100], [fsub1], [fofu8],
    [flt1] the float32 operations on bit patterns. *)
Theorem C55_decode : forall sjis fdiv100 fsub1 fofu8 flt1 w rest utf16, pmd_fits w -> pmd_indexed w -> exists d,
  parse_mmd sjis fdiv100 fsub1 fofu8 flt1 utf16 (pmd_bytes w ++ rest) = ROk d rest /\ r_pmd sjis fdiv100 fsub1 fofu8 flt1 w d.
Proof. exact pmd_decodes. Qed.
Print Assumptions C55_decode.

(** The description of materials and textures has one solution, and the generated material names
    are distinct. *)
Theorem C55_materials_unique : forall sjis fofu8 flt1 i n l ms ts, r_materials sjis fofu8 flt1 i n l ms ts ->
  forall ms' ts', r_materials sjis fofu8 flt1 i n l ms' ts' -> ms = ms' /\ ts = ts'.
Proof. exact (fun sjis => r_materials_fun sjis (fun z => z) (fun z => z)). Qed.
Print Assumptions C55_materials_unique.
Theorem C55_names_distinct : forall i j, mat_name i = mat_name j -> i = j.
Proof. exact mat_name_inj. Qed.
Print Assumptions C55_names_distinct.

(** Two vertices, a face, four materials with all kinds of texture field, two bones of which
    one has two IK entries, a base morph and a morph. *)
Definition v0 : vec3 Z := mkV3 0 0 0.
Definition mat (tex : bytes) : pmaterial := mkPM (mkV4 1 2 3 0) 4 v0 (mkV3 7 8 9) 255 1 3 tex (repeat 7 20).
Definition model : pmd :=
  mkPmd 1065353216 [109] (repeat 253 18) [99; 10] (repeat 253 255)
    [ mkPV (mkV3 1 2 3) v0 (mkV2 4 5) 1 (-1) 70 0; mkPV v0 (mkV3 1 2 3) (mkV2 0 0) 0 1 0 1 ]
    [ mkFace 0 1 1 ]
    [ mat [97; 42; 98]; mat []; mat [99]; mat [42; 100] ]
    [ mkPB [98; 48] (repeat 0 17) (-1) 0 1 0 (mkV3 1 2 3); mkPB (repeat 65 20) [] 0 1 2 5 v0 ]
    [ mkPK 1 0 40 9 [0; -1]; mkPK 1 1 15 9 [3] ]
    (Some (mkPO [98] (repeat 0 18) 0 [(1, v0); (0, v0)], [ mkPO [109] (repeat 0 18) 3 [(1, mkV3 1 2 3); (1, mkV3 4 5 6); (0, mkV3 7 8 9)] ])).
Example C55_example_hyp : pmd_fits model /\ pmd_indexed model.
Proof.
  split; [|split; [|]]; unfold pmd_fits, model, field_ok, po_in; cbn [p_version p_name p_njunk p_comment p_cjunk p_vertices p_faces p_materials p_bones p_iks p_morphs];
    repeat match goal with
    | |- _ /\ _ => split
    | |- Forall _ _ => apply Forall_cons || apply Forall_nil
    | |- pv_ok _ => unfold pv_ok | |- pf_ok _ => unfold pf_ok | |- pm_ok _ => unfold pm_ok | |- pb_ok _ => unfold pb_ok
    | |- pk_ok _ => unfold pk_ok | |- po_ok _ => unfold po_ok | |- field_ok _ _ _ => unfold field_ok
    | |- ~ _ => cbn; intuition discriminate
    | |- po_in _ _ => unfold po_in
    | |- _ = true => reflexivity
    | |- (_ <= _)%nat => vm_compute; repeat constructor
    | |- (_ < _)%nat => vm_compute; repeat constructor
    | |- _ => progress cbn
    end; try discriminate; try reflexivity.
Qed.
(** The base morph swaps the two vertices; the material without texture and the one with only
    a sphere map have none; links of both IK entries are kept. *)
Example C55_example :
  match parse_mmd (fun b => b) (fun w => w + 1000) (fun w => w + 5000) (fun w => w) (fun w => w =? 0) (fun b => b) (pmd_bytes model) with
  | ROk d [] =>
      map mo_vertex (d_morphs d) = [[mkMV 0 (mkV3 1 2 3); mkMV 0 (mkV3 4 5 6); mkMV 1 (mkV3 7 8 9)]] /\
      d_textures d = [[97]; [98]; [99]] /\ map m_texture (d_materials d) = [0; -1; 2; -1] /\
      map m_name (d_materials d) = [[109; 97; 116; 49]; [109; 97; 116; 50]; [109; 97; 116; 51]; [109; 97; 116; 52]] /\
      map ik_target (d_bones d) = [0; 1] /\ map (fun b => map l_target (ik_links b)) (d_bones d) = [[]; [0; -1; 3]] /\
      map b_tail_id (d_bones d) = [-1; 1] /\ map v_weights (d_vertexes d) = [[1070; 6070]; [1000; 6000]]
  | _ => False
  end.
Proof. vm_compute. repeat split; reflexivity. Qed.
