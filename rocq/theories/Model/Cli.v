(** The command line program: cmd/modelconv/main.go.  The library functions path.Match and strconv.ParseFloat are parameters. *)
From Coq Require Import String Ascii List ZArith Bool.
From Verif.Model Require Import Num Vec Matrix Mqo MqoDoc Mqo2Gltf.
Import ListNotations.
Local Open Scope string_scope.
Local Open Scope list_scope.

(** strings.Split with a one-byte separator (as used in main.go 281-370). *)
Fixpoint split (sep : ascii) (s : string) : list string :=
  match s with
  | EmptyString => [""]
  | String c r => if Ascii.eqb c sep then "" :: split sep r
                  else match split sep r with w :: l => String c w :: l | [] => [String c ""] end
  end.
(** strings.SplitN(s, sep, 2) (main.go 329, 343); [None]: fewer than two parts. *)
Fixpoint split2 (sep : ascii) (s : string) : option (string * string) :=
  match s with
  | EmptyString => None
  | String c r => if Ascii.eqb c sep then Some ("", r)
                  else match split2 sep r with Some (a, b) => Some (String c a, b) | None => None end
  end.

(** filepath.Ext (used in main.go 167, 179, 184): from the last dot of the last path element. *)
Fixpoint has_sep (s : string) : bool :=
  match s with EmptyString => false | String c r => Ascii.eqb c "/" || has_sep r end.
Fixpoint ext (s : string) : string :=
  match s with
  | EmptyString => ""
  | String c r => match ext r with
                  | EmptyString => if Ascii.eqb c "." && negb (has_sep r) then s else ""
                  | e => e
                  end
  end.
(** strings.ToLower (main.go 167, 179), for ASCII only: other letters are left alone, so that the length never changes. *)
Definition lower_ascii (c : ascii) : ascii :=
  if (65 <=? nat_of_ascii c)%nat && (nat_of_ascii c <=? 90)%nat then ascii_of_nat (nat_of_ascii c + 32) else c.
Fixpoint lower (s : string) : string := match s with EmptyString => "" | String c r => String (lower_ascii c) (lower r) end.

(** [isGltf], [isMMD], [isMQO] (main.go 56-66), [defaultOutputExt] (72-77). *)
Definition is_gltf (e : string) : bool := existsb (String.eqb e) [".glb"; ".gltf"; ".vrm"].
Definition is_mmd (e : string) : bool := existsb (String.eqb e) [".pmx"; ".pmd"].
Definition is_mqo (e : string) : bool := existsb (String.eqb e) [".mqo"; ".mqoz"].
Definition default_output_ext (e : string) : string := if is_mqo e then ".glb" else ".mqo".

(** What is read and written (main.go 162-182); [None]: no arguments.  [jInputs] are the arguments handed to [saveDocument] (400), of which the motions after
    the first are read. *)
Record job := mkJob { jInputExt : string; jOutput : string; jOutputExt : string; jInputs : list string }.
Definition make_job (format : string) (args : list string) : option job :=
  match args with
  | [] => None
  | input :: rest =>
      let inputExt := lower (ext input) in
      let outputExt := String "." format in
      match rest with
      | [] => let e := if String.eqb outputExt "." then default_output_ext inputExt else outputExt in
              Some (mkJob inputExt (substring 0 (String.length input - String.length inputExt) input ++ e)%string e [input])
      | _ => let output := last args "" in
             let e := if String.eqb outputExt "." then lower (ext output) else outputExt in
             Some (mkJob inputExt output e (removelast args))
      end
  end.
(** Whether something is written: main.go 221, 237, 247 with utils.go 29-95 (what can be loaded) and main.go 79-157 (what can be saved). *)
Definition is_unity (e : string) : bool := existsb (String.eqb e) [".unity"; ".prefab"; ".unitypackage"].
Definition can_load (e : string) : bool := is_mqo e || is_gltf e || is_mmd e || is_unity e || String.eqb e ".fbx".
Definition can_save (i o : string) : bool :=
  can_load i && (is_gltf o || is_mqo o || String.eqb o ".pmx" || String.eqb i ".fbx" && String.eqb o ".fbx").

Section Options.
Context {T : Type} {N : Num T}.

(** The scale (main.go 200-219); [eighty] is the default for MMD models.  [None]: nothing is transformed. *)
Definition scale_vec (eighty : T) (rot180 : bool) (inputExt : string) (scale sx sy sz : T) : option (vec3 T) :=
  let s := if neqb scale nzero then (if is_mmd inputExt then eighty else none) else scale in
  let v := mkV3 (nmul s sx) (nmul s sy) (nmul s sz) in
  let v := if rot180 then mkV3 (nopp (vx v)) (vy v) (nopp (vz v)) else v in
  if neqb (vx v) none && neqb (vy v) none && neqb (vz v) none then None else Some v.

Variable glob : string -> string -> bool.
(** [match] (main.go 267-274). *)
Definition matches (patterns : list string) (name : string) : bool := existsb (fun p => glob p name) patterns.

(** How the program goes on: a value, a message and exit (log.Fatal), or a nil pointer. *)
Inductive outcome (A : Type) := Done (a : A) | Fatal | Crash.
Arguments Done {A} a. Arguments Fatal {A}. Arguments Crash {A}.

Definition set_parent (b : bone T) (p : Z) : bone T := mkBone (bID b) (bName b) p (bPos b) (bWeights b).
(** -chparent (main.go 276-291); the map of bones by name is made before the loop, and names do not change. *)
Definition bone_named (bones : list (bone T)) (n : string) : option nat := last_index (fun b => String.eqb (bName b) n) bones.
Fixpoint ch_parents (pairs : list string) (bones : list (bone T)) : outcome (list (bone T)) :=
  match pairs with
  | [] => Done bones
  | n :: r =>
      match split ":" n with
      | [child; parent] =>
          match bone_named bones child with
          | None => ch_parents r bones
          | Some i => match match bone_named bones parent with Some j => nth_error bones j | None => None end with
                      | None => Crash
                      | Some p => ch_parents r (list_upd bones i (fun b => set_parent b (bID p)))
                      end
          end
      | _ => Fatal
      end
  end.
Definition ch_parent (arg : string) (bones : list (bone T)) : outcome (list (bone T)) :=
  if String.eqb arg "" then Done bones else ch_parents (split "," arg) bones.

(** -hide (main.go 303-314): [hide_run] is the inner loop, [hide_step] one round of the outer. *)
Fixpoint hide_run (d : Z) (os : list (object T)) : list (object T) :=
  match os with
  | [] => []
  | o :: r => if (d <? oDepth o)%Z then set_visible o false :: hide_run d r else os
  end.
Definition hide_step (patterns : list string) (os : list (object T)) (idx : nat) : list (object T) :=
  firstn idx os ++ match skipn idx os with
                   | [] => []
                   | o :: r => if matches patterns (oName o) then set_visible o false :: hide_run (oDepth o) r else o :: r
                   end.
Definition hide (arg : string) (os : list (object T)) : list (object T) :=
  if String.eqb arg "" then os else fold_left (hide_step (split "," arg)) (seq 0 (List.length os)) os.

Definition set_w (c : vec4 T) (w : T) : vec4 T := mkV4 (qx c) (qy c) (qz c) w.
(** The name and alpha of a hidden material (main.go 320-321, 357-358). *)
Definition ignore (m : material T) : material T := set_mat_color (set_mat_name m (mtName m ++ "$IGNORE")) (set_w (mtColor m) nzero).
(** -hidemat (main.go 316-324). *)
Definition hide_mat (arg : string) (ms : list (material T)) : list (material T) :=
  if String.eqb arg "" then ms else map (fun m => if matches (split "," arg) (mtName m) then ignore m else m) ms.

Definition set_shader (m : material T) (s : Z) (e : option (matex2 T)) : material T :=
  mkMat (mtName m) (mtUID m) (mtColor m) (mtDiffuse m) (mtAmbient m) (mtEmission m) (mtSpecular m) (mtPower m)
        (mtTexture m) (mtBump m) (mtAlpha m) (mtEmissionColor m) (mtDouble m) s e.
(** A map entry is set (Go map assignment); the order of the other entries is not observable. *)
Fixpoint param_set (l : list (string * param T)) (k : string) (p : param T) : list (string * param T) :=
  match l with [] => [(k, p)] | (k', p') :: r => if String.eqb k' k then (k, p) :: r else (k', p') :: param_set r k p end.
(** [NewMaterialEx2] (mqo/mqo.go 171-178), [SetGltfAlphaMode] (156-161). *)
Definition new_ex2 (name : string) : matex2 T := mkEx2 "" name [] [] [].
Definition set_alpha_mode (m : material T) (mode : Z) : material T :=
  let e := match mtEx2 m with Some e => if String.eqb (exName e) "glTF" then e else new_ex2 "glTF" | None => new_ex2 "glTF" end in
  set_shader m (mtShader m) (Some (mkEx2 (exType e) (exName e) (param_set (exParams e) "AlphaMode" (PInt mode)) (exMapping e) (exMappingParams e))).

Variable parse_float : string -> option T.
(** One material of -alpha (main.go 349-366); [None]: invalid value, the program ends. *)
Definition alpha_mat (value : string) (m : material T) : option (material T) :=
  if String.eqb value "opaque" then let m := set_alpha_mode m 1 in Some (set_mat_color m (set_w (mtColor m) none))
  else if String.eqb value "mask" then Some (set_alpha_mode m 2)
  else if String.eqb value "blend" then Some (set_alpha_mode m 3)
  else if String.eqb value "0" then Some (ignore m)
  else match parse_float value with
       | None => None
       | Some a => let m := if String.eqb (shader_name m) "glTF" then set_alpha_mode m 3 else m in Some (set_mat_color m (set_w (mtColor m) a))
       end.
(** -alpha (main.go 341-371); [None]: the program ends with a message. *)
Fixpoint alphas (ps : list string) (ms : list (material T)) : option (list (material T)) :=
  match ps with
  | [] => Some ms
  | p :: r =>
      match split2 ":" p with
      | None => alphas r ms
      | Some (pat, value) =>
          match all_some (fun m => if glob pat (mtName m) then alpha_mat value m else Some m) ms with
          | None => None
          | Some ms' => alphas r ms'
          end
      end
  end.
Definition alpha (arg : string) (ms : list (material T)) : option (list (material T)) :=
  if String.eqb arg "" then Some ms else alphas (split "," arg) ms.

(** -unlit (main.go 373-381). *)
Definition unlit (arg : string) (ms : list (material T)) : list (material T) :=
  if String.eqb arg "" then ms else map (fun m => if matches (split "," arg) (mtName m) then set_shader m 1 None else m) ms.

(** The material options in their order (main.go 316-381), without -morph. *)
Definition material_options (hidemat alphaArg unlitArg : string) (ms : list (material T)) : option (list (material T)) :=
  option_map (unlit unlitArg) (alpha alphaArg (hide_mat hidemat ms)).
End Options.
Arguments Done {A} a. Arguments Fatal {A}. Arguments Crash {A}.
