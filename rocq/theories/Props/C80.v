(** C80: the material options change the materials they name, and only what they say. *)
From Coq Require Import String Ascii List ZArith QArith Bool Lia.
From Verif.Model Require Import Num Vec Mqo MqoDoc Gltf Mqo2Gltf Cli.
From Verif.Spec Require Import CliSpec.
From Verif.Proofs Require Import GltfDoc Mqo2MmdProofs CliProofs CliMat.
Import ListNotations.
Local Open Scope string_scope.
Local Open Scope list_scope.

(** -hidemat hides exactly the materials whose name matches one of the patterns. *)
Theorem C80_hidemat : forall T (N : Num T) (glob : string -> string -> bool) ps (ms : list (material T)), Forall (without ",") ps -> comma_list ps <> "" ->
  length (hide_mat glob (comma_list ps) ms) = length ms /\
  forall i m, nth_error ms i = Some m -> exists m', nth_error (hide_mat glob (comma_list ps) ms) i = Some m' /\
    ((exists p, In p ps /\ glob p (mtName m) = true) -> hidden_of nzero m m') /\ (~ (exists p, In p ps /\ glob p (mtName m) = true) -> m' = m).
Proof. exact @hide_mat_nth. Qed.
Print Assumptions C80_hidemat.
(** A hidden material is not exported to glTF. *)
Theorem C80_ignored : forall T (z : T) (os : list (object T)) i m m', hidden_of z m m' -> material_kept os i (mtName m') = false.
Proof.
  intros T z os i m m' [-> _]. unfold material_kept. assert (E : has_suffix "$IGNORE" (mtName m ++ "$IGNORE") = true); [|rewrite E, andb_false_r; reflexivity].
  generalize (mtName m) as s. induction s as [|c s IH]; [reflexivity|]. unfold has_suffix in *. cbn [String.append String.length] in *.
  assert (L : forall a b, (String.length (a ++ b) = String.length a + String.length b)%nat) by (induction a as [|x a IHa]; intros b; cbn; [reflexivity|rewrite IHa; reflexivity]).
  rewrite L in *. cbn [String.length] in *. replace (String.length s + 7 - 7)%nat with (String.length s) in IH by lia. replace (S (String.length s + 7) - 7)%nat with (S (String.length s)) by lia.
  cbn [substring]. apply andb_true_iff in IH. destruct IH as [_ IH]. apply andb_true_iff. split; [apply Nat.leb_le; lia|exact IH].
Qed.
Print Assumptions C80_ignored.
(** -unlit gives exactly the materials whose name matches the constant shader. *)
Theorem C80_unlit : forall T (N : Num T) (glob : string -> string -> bool) ps (ms : list (material T)), Forall (without ",") ps -> comma_list ps <> "" ->
  length (unlit glob (comma_list ps) ms) = length ms /\
  forall i m, nth_error ms i = Some m -> exists m', nth_error (unlit glob (comma_list ps) ms) i = Some m' /\
    ((exists p, In p ps /\ glob p (mtName m) = true) -> mtName m' = mtName m /\ mtColor m' = mtColor m /\ same_look m m' /\ mtShader m' = 1%Z /\ mtEx2 m' = None) /\
    (~ (exists p, In p ps /\ glob p (mtName m) = true) -> m' = m).
Proof. intros T N. exact (@unlit_nth T). Qed.
Print Assumptions C80_unlit.
(** One -alpha setting: the materials whose name matches get the alpha or alpha mode that is asked for, as seen in the exported material; all others are
    left alone.  It only fails if the value is not a number. *)
Theorem C80_alpha_partial : forall T (N : Num T) (glob : string -> string -> bool) (parse_float : string -> option T) force op rough tex_alpha pat value (ms : list (material T)),
  without "," (pat ++ ":" ++ value)%string -> without ":" pat ->
  (forall ms', alpha glob parse_float (pat ++ ":" ++ value) ms = Some ms' -> length ms' = length ms /\
     forall i m, nth_error ms i = Some m -> exists m', nth_error ms' i = Some m' /\
       (glob pat (mtName m) = true -> alpha_effect (convert_material force op rough tex_alpha) nzero none (fun a => nltb a op) parse_float value m m') /\ (glob pat (mtName m) = false -> m' = m)) /\
  (alpha glob parse_float (pat ++ ":" ++ value) ms = None -> ~ In value ["opaque"; "mask"; "blend"; "0"] /\ parse_float value = None /\ exists m, In m ms /\ glob pat (mtName m) = true).
Proof.
  intros T N glob pf force op rough ta pat value ms C P. rewrite (alpha_one glob pf pat value ms C P). split.
  - intros ms' E. apply all_some_spec in E. split; [clear - E; induction E; cbn; congruence|]. intros i m Ei. destruct (forall2_nth _ _ _ E _ _ Ei) as (m' & A & B). exists m'. split; [exact A|].
    destruct (glob pat (mtName m)); [split; [intros _; exact (alpha_mat_effect pf force op rough ta value m m' B)|discriminate]|split; [discriminate|intros _; congruence]].
  - induction ms as [|m ms IH]; intros E; [discriminate|]. cbn [all_some] in E. destruct (glob pat (mtName m)) eqn:G.
    + destruct (alpha_mat pf value m) eqn:A.
      * destruct (all_some _ ms); [discriminate|]. destruct (IH eq_refl) as (X & Y & x & Hx & Gx). split; [exact X|]. split; [exact Y|]. exists x. split; [right; exact Hx|exact Gx].
      * unfold alpha_mat in A. destruct (String.eqb_spec value "opaque"); [discriminate|]. destruct (String.eqb_spec value "mask"); [discriminate|]. destruct (String.eqb_spec value "blend"); [discriminate|]. destruct (String.eqb_spec value "0"); [discriminate|].
        destruct (pf value); [discriminate|]. split; [cbn; intuition congruence|]. split; [reflexivity|]. exists m. split; [left; reflexivity|exact G].
    + destruct (all_some _ ms); [discriminate|]. destruct (IH eq_refl) as (X & Y & x & Hx & Gx). split; [exact X|]. split; [exact Y|]. exists x. split; [right; exact Hx|exact Gx].
Qed.
Print Assumptions C80_alpha_partial.
(** The mode is the only parameter of a material with a glTF shader that changes. *)
Theorem C80_alpha_shader_partial : forall T (m : material T) k e0, mtEx2 m = Some e0 -> exName e0 = "glTF" ->
  exists e, mtEx2 (set_alpha_mode m k) = Some e /\ exName e = "glTF" /\ param_of (exParams e) "AlphaMode" = Some (PInt k) /\ exType e = exType e0 /\ exMapping e = exMapping e0 /\ exMappingParams e = exMappingParams e0 /\
    same_params_but "AlphaMode" (exParams e0) (exParams e).
Proof.
  intros T m k e0 E F. destruct (set_alpha_mode_ex m k) as (e & A & B & C & D). exists e. destruct (D e0 E F) as (D1 & D2 & D3 & D4). repeat (split; [assumption|]). exact D4.
Qed.
Print Assumptions C80_alpha_shader_partial.
(** Several settings are applied one after the other. *)
Theorem C80_alpha_list : forall T (N : Num T) (glob : string -> string -> bool) (parse_float : string -> option T) a b (ms : list (material T)),
  Forall (without ",") a -> Forall (without ",") b -> comma_list a <> "" -> comma_list b <> "" ->
  alpha glob parse_float (comma_list (a ++ b)) ms = match alpha glob parse_float (comma_list a) ms with Some ms' => alpha glob parse_float (comma_list b) ms' | None => None end.
Proof.
  intros T N glob pf a b ms Fa Fb Ea Eb. rewrite (alpha_list glob pf a), (alpha_list glob pf (a ++ b)); try assumption.
  - rewrite alphas_app. destruct (alphas glob pf a ms); [|reflexivity]. rewrite alpha_list by assumption. reflexivity.
  - apply Forall_app. split; assumption.
  - destruct a as [|x a]; [contradiction|]. destruct a as [|y a]; [|cbn; destruct x; discriminate]. destruct b as [|z b]; [contradiction|]. cbn. destruct x; discriminate.
Qed.
Print Assumptions C80_alpha_list.

Definition mt (n : string) (sh : Z) (e : option (matex2 Q)) : material Q :=
  mkMat n 0 (mkV4 1 1 1 1)%Q 1 0 0 0 5 "a.png" "" "" None false sh e.
Definition exp (m : material Q) : gmat Q := convert_material false (99 # 100) (4 # 10) (fun _ => false) m.
Definition look (g : gmat Q) : string * galpha Q * Q * bool := (gtName g, gtAlpha g, gtRough g, gtUnlit g).
Definition pf (s : string) : option Q := if String.eqb s "0.5" then Some (1 # 2)%Q else None.
(** Refuted: making a material masked sets the cutoff to zero, so that nothing is masked, makes it shine, and makes an unlit material lit. *)
Theorem C80_mask_refuted : option_map (map (fun m => look (exp m))) (alpha String.eqb pf "m:mask,c:mask" [mt "m" 3 None; mt "c" 1 None; mt "x" 1 None]) =
  Some [("m", GMask 0%Q, 0%Q, false); ("c", GMask 0%Q, 0%Q, false); ("x", GOpaque, (4 # 10)%Q, true)] /\
  map (fun m => look (exp m)) [mt "m" 3 None; mt "c" 1 None; mt "x" 1 None] = [("m", GOpaque, (4 # 10)%Q, false); ("c", GOpaque, (4 # 10)%Q, true); ("x", GOpaque, (4 # 10)%Q, true)].
Proof. split; vm_compute; reflexivity. Qed.
Print Assumptions C80_mask_refuted.
(** Refuted: -unlit takes back the alpha mode, the one that the material had as well as the one set by -alpha. *)
Theorem C80_unlit_refuted : option_map (map (fun m => look (exp m))) (material_options String.eqb pf "" "m:mask" "m,g" [mt "m" 3 None; mt "g" 3 (Some (mkEx2 "" "glTF" [("AlphaMode", PInt 3)] [] []))]) =
  Some [("m", GOpaque, (4 # 10)%Q, true); ("g", GOpaque, (4 # 10)%Q, true)] /\ gtAlpha (exp (mt "g" 3 (Some (mkEx2 "" "glTF" [("AlphaMode", PInt 3)] [] [])))) = GBlend.
Proof. split; vm_compute; reflexivity. Qed.
Print Assumptions C80_unlit_refuted.

Example C80_example : option_map (map (fun m => (look (exp m), qw (mtColor m)))) (material_options String.eqb pf "h" "m:0.5,m:opaque,n:0.5,h:mask,k:0" "x,n" [mt "h" 3 None; mt "m" 3 None; mt "n" 3 None; mt "k" 0 None]) =
  Some [(("h$IGNORE", GBlend, (4 # 10)%Q, false), 0%Q); (("m", GOpaque, 0%Q, false), 1%Q); (("n", GBlend, (4 # 10)%Q, true), (1 # 2)%Q); (("k$IGNORE", GBlend, (4 # 10)%Q, false), 0%Q)] /\
  Forall (without ",") ["x"; "n"] /\ without "," "m:0.5" /\ without ":" "m".
Proof. split; [vm_compute; reflexivity|]. split; [repeat constructor; intros [E|[]]; discriminate|]. split; intros E; cbn in E; intuition discriminate. Qed.
