(** [mqo/mqo_writer.go] and [mqo/mqo_parser.go]: the MQO text format.

    The writer emits pieces: white space and tokens; [render] in Model/MqoLex.v turns them into
    the characters written.  The parser works on the tokens that Go's [text/scanner] returns,
    with line ends kept as [TNL] because [procAttrs] looks at them.  Numbers are formatted by
    an arbitrary formatter (class [TextNum]): sign, whether the digits look like an integer,
    and the digits.  NaN and infinities are not modelled. *)
From Coq Require Import String Ascii List ZArith NArith Bool DecimalString.
From Verif.Model Require Import Num Vec Matrix Mqo MqoDoc.
Import ListNotations.
Local Open Scope string_scope.

(** ** Tokens *)
Inductive tok :=
| TId (s : string)                    (* scanner.Ident *)
| TNum (is_int : bool) (s : string)   (* scanner.Int, scanner.Float *)
| TStr (s : string)                   (* scanner.String; [s] is the text between the quotes *)
| TCh (c : ascii)                     (* any other character *)
| TNL                                 (* a line end *)
| TEOF.                               (* scanner.EOF *)
Definition quote : string := String """" EmptyString.
(** [Scanner.TokenText] *)
Definition text (t : tok) : string :=
  match t with
  | TId s | TNum _ s => s
  | TStr s => quote ++ s ++ quote
  | TCh c => String c EmptyString
  | TNL | TEOF => ""
  end.

(** Scanner state: the line number of the last token and what follows it. *)
Record st := St { ln : nat; rest : list tok }.
(** [Scanner.Scan]: skips white space, i.e. line ends *)
Fixpoint scan_from (l : nat) (ts : list tok) : tok * st :=
  match ts with
  | [] => (TEOF, St l [])
  | TNL :: r => scan_from (S l) r
  | t :: r => (t, St l r)
  end.
Definition scan (s : st) : tok * st := scan_from (ln s) (rest s).
(** [p.s.Peek() == 0x0d || p.s.Peek() == 0x0a] *)
Definition at_eol (s : st) : bool := match rest s with TNL :: _ => true | _ => false end.
Definition is_eof (t : tok) : bool := match t with TEOF => true | _ => false end.

(** [strings.Trim] with a double quote as the cut set *)
Fixpoint trim_left (s : string) : string :=
  match s with
  | String c r => if Ascii.eqb c """" then trim_left r else s
  | EmptyString => EmptyString
  end.
Fixpoint trim_right (s : string) : string :=
  match s with
  | EmptyString => EmptyString
  | String c r =>
      match trim_right r with
      | EmptyString => if Ascii.eqb c """" then EmptyString else String c EmptyString
      | r' => String c r'
      end
  end.
Definition trimq (s : string) : string := trim_right (trim_left s).

(** [strconv.Atoi] on the text of an Int token: decimal digits; an error gives 0.  Overflow is
    not modelled. *)
Definition atoi (s : string) : Z :=
  match NilEmpty.uint_of_string s with Some u => Z.of_N (N.of_uint u) | None => 0%Z end.
(** [fmt.Sprintf("%d", n)] for [n >= 0] *)
Definition decN (n : N) : string := NilEmpty.string_of_uint (N.to_uint n).

(** Number literals of [text/scanner] ([scanNumber]), decimal only: digits, an optional
    fraction, an optional exponent.  Result: is it an Int token, its text, what follows. *)
Definition is_digit (c : ascii) : bool := let n := nat_of_ascii c in Nat.leb 48 n && Nat.leb n 57.
Fixpoint lex_digits (s : string) : string * string :=
  match s with
  | String c r => if is_digit c then let (a, b) := lex_digits r in (String c a, b) else (EmptyString, s)
  | EmptyString => (EmptyString, EmptyString)
  end.
Definition lex_frac (s : string) : string * string :=
  match s with
  | String "." r => let (a, b) := lex_digits r in (String "." a, b)
  | _ => (EmptyString, s)
  end.
Definition lex_exp (s : string) : string * string :=
  match s with
  | String "e" (String "+" r) => let (a, b) := lex_digits r in (String "e" (String "+" a), b)
  | String "e" (String "-" r) => let (a, b) := lex_digits r in (String "e" (String "-" a), b)
  | String "e" r => let (a, b) := lex_digits r in (String "e" a, b)
  | _ => (EmptyString, s)
  end.
Definition lex_number (s : string) : option (bool * string * string) :=
  match s with
  | String c _ =>
      if is_digit c then
        let (d, r1) := lex_digits s in let (f, r2) := lex_frac r1 in let (e, r3) := lex_exp r2 in
        Some (String.eqb (f ++ e) "", d ++ f ++ e, r3)
      else None
  | EmptyString => None
  end.

(** [%v], [%.2f], [%.3f], [%.4f], [%f] *)
Inductive ffmt := FV | F2 | F3 | F4 | F6.
Class TextNum (T : Type) := {
  fmt_num : ffmt -> T -> bool * bool * string;  (* negative sign, no '.' or exponent, digits *)
  parse_num : string -> T;                      (* strconv.ParseFloat(s, 32) *)
  facet0 : T;                                   (* 59.5, mqo/mqo.go:280 *)
  fmt_num_ok : forall f x, let '(_, isint, s) := fmt_num f x in lex_number s = Some (isint, s, "") }.

Section Text.
Context {T : Type} {N : Num T} {X : TextNum T}.

(** mqo/mqo.go:90-100 *)
Record scene := mkScene {
  scPos : vec3 T; scLook : vec3 T; scRot : vec3 T; scZoom2 : T; scFront : T; scBack : T;
  scOrtho : bool; scAmb : option (vec3 T) }.
(** mqo/mqo.go:15-21; [tdInclude] is the name of the .mqx file that holds the plugins *)
Record text_doc := mkTD { tdInclude : option string; tdScene : option scene; tdDoc : document T }.

(** ** Writer: mqo/mqo_writer.go *)
Inductive piece := W (s : string) | K (t : tok).
Definition tab : string := String "009" EmptyString.
Definition NL : piece := K TNL.
Definition sp : piece := W " ".
Definition ch (c : ascii) : piece := K (TCh c).
(** [%d] or [%v] of an int *)
Definition pint (z : Z) : list piece :=
  if (z <? 0)%Z then [ch "-"; K (TNum true (decN (Z.to_N (- z))))] else [K (TNum true (decN (Z.to_N z)))].
Definition pflt (f : ffmt) (x : T) : list piece :=
  let '(neg, isint, s) := fmt_num f x in
  if neg then [ch "-"; K (TNum isint s)] else [K (TNum isint s)].
(** items separated by single spaces *)
Fixpoint spaced (l : list (list piece)) : list piece :=
  match l with [] => [] | [x] => x | x :: r => x ++ sp :: spaced r end.
Definition pvec (f : ffmt) (v : vec3 T) : list piece := spaced [pflt f (vx v); pflt f (vy v); pflt f (vz v)].
(** mqo/mqo_writer.go:28-33 *)
Definition pbool (b : bool) : list piece := pint (if b then 1 else 0)%Z.
(** a line of the form [\tname items\n] *)
Definition line (tabs : string) (name : string) (x : list piece) : list piece := W tabs :: K (TId name) :: sp :: x ++ [NL].
(** [ name(items)] *)
Definition attr (name : string) (x : list piece) : list piece := sp :: K (TId name) :: ch "(" :: x ++ [ch ")"].
Definition open_line (x : list piece) : list piece := x ++ [sp; ch "{"; NL].
Definition close_line (tabs : string) : list piece := (if String.eqb tabs "" then [] else [W tabs]) ++ [ch "}"; NL].
Definition when (b : bool) (x : list piece) : list piece := if b then x else [].
Definition opt {A} (o : option A) (f : A -> list piece) : list piece := match o with Some a => f a | None => [] end.

(** mqo/mqo_writer.go:37-40 *)
Definition w_header : list piece :=
  [K (TId "Metasequoia"); sp; K (TId "Document"); NL; K (TId "Format"); sp; K (TId "Text"); sp; K (TId "Ver"); sp;
   K (TNum false "1.1"); NL; K (TId "CodePage"); sp; K (TId "utf8"); NL; NL].
(** mqo/mqo_writer.go:42-47 *)
Definition w_include (f : string) : list piece := [K (TId "IncludeXml"); sp; K (TStr f); NL].
(** mqo/mqo_writer.go:49-69 *)
Definition w_scene (s : scene) : list piece :=
  open_line [K (TId "Scene")] ++
  line tab "pos" (pvec FV (scPos s)) ++ line tab "lookat" (pvec FV (scLook s)) ++
  line tab "head" (pflt F4 (vy (scRot s))) ++ line tab "pich" (pflt F4 (vx (scRot s))) ++
  line tab "bank" (pflt F4 (vz (scRot s))) ++ line tab "ortho" (pbool (scOrtho s)) ++
  line tab "zoom2" (pflt F4 (scZoom2 s)) ++
  opt (scAmb s) (fun a => line tab "amb" (pvec F3 a)) ++
  when (nltb nzero (scFront s)) (line tab "frontclip" (pflt FV (scFront s))) ++
  when (nltb nzero (scBack s)) (line tab "backclip" (pflt FV (scBack s))) ++
  close_line "".
(** [strings.Replace] of every backslash by a slash *)
Fixpoint slashes (s : string) : string :=
  match s with
  | EmptyString => EmptyString
  | String c r => String (if Ascii.eqb c "\" then "/"%char else c) (slashes r)
  end.
Definition pstr (s : string) : list piece := [K (TStr s)].
(** mqo/mqo_writer.go:74-98 *)
Definition w_material (m : material T) : list piece :=
  W tab :: K (TStr (mtName m)) ::
  when (negb (mtShader m =? 0)%Z) (attr "shader" (pint (mtShader m))) ++
  when (mtDouble m) (attr "dbls" (pbool (mtDouble m))) ++
  when (0 <? mtUID m)%Z (attr "uid" (pint (mtUID m))) ++
  attr "col" (spaced [pflt F3 (qx (mtColor m)); pflt F3 (qy (mtColor m)); pflt F3 (qz (mtColor m)); pflt F3 (qw (mtColor m))]) ++
  attr "dif" (pflt F3 (mtDiffuse m)) ++ attr "amb" (pflt F3 (mtAmbient m)) ++ attr "emi" (pflt F3 (mtEmission m)) ++
  attr "spc" (pflt F3 (mtSpecular m)) ++ attr "power" (pflt F2 (mtPower m)) ++
  when (negb (String.eqb (mtTexture m) "")) (attr "tex" (pstr (slashes (mtTexture m)))) ++
  when (negb (String.eqb (mtAlpha m) "")) (attr "aplane" (pstr (slashes (mtAlpha m)))) ++
  when (negb (String.eqb (mtBump m) "")) (attr "bump" (pstr (slashes (mtBump m)))) ++ [NL].

(** A shader parameter's name is written bare; the scanner splits it at the first dot.  (Names
    that are not one or two identifiers are split further by the real scanner.) *)
Fixpoint split_dot (s : string) : option (string * string) :=
  match s with
  | EmptyString => None
  | String c r =>
      if Ascii.eqb c "." then Some (EmptyString, r)
      else match split_dot r with Some (a, b) => Some (String c a, b) | None => None end
  end.
Definition pkey (s : string) : list piece :=
  match split_dot s with Some (a, b) => [K (TId a); ch "."; K (TId b)] | None => [K (TId s)] end.
(** mqo/mqo_writer.go:116-127.  Strings and colours are written as type [int] with Go's
    default format; a string is assumed to be one identifier. *)
Definition w_param (p : string * param T) : list piece :=
  W (tab ++ tab ++ tab) :: pkey (fst p) ++
  match snd p with
  | PBool b => [sp; K (TId "bool"); sp] ++ pbool b
  | PFloat x => [sp; K (TId "float"); sp] ++ pflt FV x
  | PInt z => [sp; K (TId "int"); sp] ++ pint z
  | PColor c => [sp; K (TId "int"); sp; ch "["] ++ spaced (map (pflt FV) c) ++ [ch "]"]
  | PStr s => [sp; K (TId "int"); sp; K (TId s)]
  end ++ [NL].
Definition plen {A} (l : list A) : list piece := pint (Z.of_nat (length l)).
(** mqo/mqo_writer.go:109-130 *)
Definition w_ex2 (mi : nat) (e : matex2 T) : list piece :=
  W tab :: open_line ([K (TId "material"); sp] ++ pint (Z.of_nat mi)) ++
  line (tab ++ tab) "shadertype" (pstr (exType e)) ++ line (tab ++ tab) "shadername" (pstr (exName e)) ++
  W (tab ++ tab) :: open_line ([K (TId "shaderparam"); sp] ++ plen (exParams e)) ++
  concat (map w_param (exParams e)) ++ close_line (tab ++ tab) ++ close_line tab.
Fixpoint w_ex2s (i : nat) (ms : list (material T)) : list piece :=
  match ms with
  | [] => []
  | m :: r => opt (mtEx2 m) (w_ex2 i) ++ w_ex2s (S i) r
  end.
Definition has_ex2 (m : material T) : bool := match mtEx2 m with Some _ => true | None => false end.
(** mqo/mqo_writer.go:71-132 *)
Definition w_materials (ms : list (material T)) : list piece :=
  open_line ([K (TId "Material"); sp] ++ plen ms) ++ concat (map w_material ms) ++ close_line "" ++
  when (existsb has_ex2 ms)
    (open_line ([K (TId "MaterialEx2"); sp] ++ plen (filter has_ex2 ms)) ++ w_ex2s 0 ms ++ close_line "").

(** mqo/mqo_writer.go:193-228 *)
Definition normal_flag (n : option (vec3 T)) : list piece := pint (match n with Some _ => 2 | None => 0 end)%Z.
Definition w_face (f : face T) : list piece :=
  W (tab ++ tab) :: plen (fVerts f) ++ attr "V" (spaced (map pint (fVerts f))) ++ attr "M" (pint (fMaterial f)) ++
  when (0 <? fUID f)%Z (attr "UID" (pint (fUID f))) ++
  when (Nat.eqb (length (fUVs f)) (length (fVerts f)))
    (attr "UV" (spaced (map (fun u => spaced [pflt FV (v2x u); pflt FV (v2y u)]) (fUVs f)))) ++
  when (Nat.eqb (length (fNormals f)) (length (fVerts f)))
    (attr "N" (spaced (map normal_flag (fNormals f)) ++
               concat (map (fun n => opt n (fun v => sp :: pvec FV v)) (fNormals f)))) ++ [NL].
(** mqo/mqo_writer.go:175-190: the id written for vertex [i]; [m] lists the map in iteration
    order, the last entry for a vertex wins *)
Fixpoint uid_of (m : list (Z * Z)) (i : Z) : option Z :=
  match m with
  | [] => None
  | (u, v) :: r => match uid_of r i with Some x => Some x | None => if (v =? i)%Z then Some u else None end
  end.
Definition w_uid (m : list (Z * Z)) (i : Z) : Z :=
  match uid_of m i with Some u => if (u =? 0)%Z then (i + 1)%Z else u | None => (i + 1)%Z end.
Definition zseq (n : nat) : list Z := map Z.of_nat (seq 0 n).
Definition w_vertexattr (o : object T) : list piece :=
  W tab :: open_line [K (TId "vertexattr")] ++ W (tab ++ tab) :: open_line [K (TId "uid")] ++
  concat (map (fun i => W (tab ++ tab ++ tab) :: pint (w_uid (oVertexByUID o) i) ++ [NL]) (zseq (length (oVerts o)))) ++
  close_line (tab ++ tab) ++ close_line tab.
Definition yxz (v : vec3 T) : vec3 T := mkV3 (vy v) (vx v) (vz v).
Definition is_nil {A} (l : list A) : bool := match l with [] => true | _ => false end.
(** mqo/mqo_writer.go:134-232 *)
Definition w_object (o : object T) : list piece :=
  open_line [K (TId "Object"); sp; K (TStr (oName o))] ++
  when (0 <? oUID o)%Z (line tab "uid" (pint (oUID o))) ++
  line tab "depth" (pint (oDepth o)) ++ line tab "folding" (pbool (oFolding o)) ++
  opt (oScale o) (fun v => line tab "scale" (pvec FV v)) ++
  opt (oRotation o) (fun v => line tab "rotation" (pvec FV (yxz v))) ++
  opt (oTranslation o) (fun v => line tab "translation" (pvec FV v)) ++
  when (negb (oVisible o)) (line tab "visible" (pint 0)) ++
  line tab "locking" (pbool (oLocked o)) ++ line tab "shading" (pint (oShading o)) ++
  line tab "facet" (pflt FV (oFacet o)) ++
  when (negb (oMirror o =? 0)%Z || negb (neqb (oMirrorDis o) nzero))
    (line tab "mirror" (pint (oMirror o)) ++ line tab "mirror_dis" (pflt F6 (oMirrorDis o))) ++
  when (0 <? oPatch o)%Z (line tab "patch" (pint (oPatch o)) ++ line tab "segment" (pint (oPatchSegment o))) ++
  opt (oColor o) (fun v => line tab "color" (pvec F3 v)) ++
  W tab :: open_line ([K (TId "vertex"); sp] ++ plen (oVerts o)) ++
  concat (map (fun v => W (tab ++ tab) :: pvec FV v ++ [NL]) (oVerts o)) ++ close_line tab ++
  when (negb (is_nil (oVertexByUID o))) (w_vertexattr o) ++
  W tab :: open_line ([K (TId "face"); sp] ++ plen (oFaces o)) ++
  concat (map w_face (oFaces o)) ++ close_line tab ++ close_line "".
(** mqo/mqo_writer.go:35-244 *)
Definition write_mqo (d : text_doc) : list piece :=
  w_header ++ opt (tdInclude d) w_include ++ opt (tdScene d) w_scene ++
  w_materials (dMaterials (tdDoc d)) ++ concat (map w_object (dObjects (tdDoc d))) ++ [K (TId "Eof"); NL].
Definition toks_of (l : list piece) : list tok := flat_map (fun p => match p with W _ => [] | K t => [t] end) l.

(** ** Parser: mqo/mqo_parser.go *)

(** mqo/mqo_parser.go:58-70 *)
Definition read_float (s : st) : T * st :=
  let (t, s1) := scan s in
  let '(t, s1, sg) := if String.eqb (text t) "-" then let (t', s') := scan s1 in (t', s', nopp none)
                      else (t, s1, none) in
  match t with
  | TNum _ x => (nmul (parse_num x) sg, s1)
  | _ => (nzero, s1)
  end.
(** mqo/mqo_parser.go:72-80 *)
Definition read_int (s : st) : Z * st :=
  let (t, s1) := scan s in (match t with TNum true x => atoi x | _ => 0%Z end, s1).
(** mqo/mqo_parser.go:82-85 *)
Definition read_str (s : st) : string * st := let (t, s1) := scan s in (trimq (text t), s1).
(** mqo/mqo_parser.go:87-90 *)
Definition read_ident (s : st) : string * st := let (t, s1) := scan s in (text t, s1).
(** mqo/mqo_parser.go:92-103; a wrong token is only logged *)
Definition skip (s : st) : st := snd (scan s).
Fixpoint skip_n (n : nat) (s : st) : st := match n with O => s | S n => skip_n n (skip s) end.

(** The handlers of a block: by token text, a function on the value being built.  [None]
    anywhere is the end of the fuel, i.e. the model gives up. *)
Definition handlers (A : Type) := string -> option (A -> st -> option (A * st)).
Definition hmap {A} (l : list (string * (A -> st -> option (A * st)))) : handlers A :=
  fun k => match find (fun p => String.eqb (fst p) k) l with Some p => Some (snd p) | None => None end.

(** mqo/mqo_parser.go:112-117: skipping an unknown attribute *)
Fixpoint skip_attr (fuel : nat) (l : nat) (s : st) : option st :=
  match fuel with
  | O => None
  | S f =>
      let (t, s1) := scan s in
      if negb (Nat.eqb l (ln s1)) || is_eof t then Some s1
      else if String.eqb (text t) ")" then Some s1 else skip_attr f l s1
  end.
(** mqo/mqo_parser.go:105-125; [F] is the fuel of the inner loop *)
Fixpoint attrs_loop {A} (F fuel : nat) (h : handlers A) (l : nat) (a : A) (s : st) : option (A * st) :=
  match fuel with
  | O => None
  | S f =>
      let (t, s1) := scan s in
      if negb (Nat.eqb l (ln s1)) || is_eof t then Some (a, s1)
      else
        match (match h (text t) with
               | Some g => match g a (skip s1) with Some (a', s2) => Some (a', skip s2) | None => None end
               | None => match skip_attr F l (skip s1) with Some s2 => Some (a, s2) | None => None end
               end) with
        | None => None
        | Some (a', s2) => if at_eol s2 then Some (a', s2) else attrs_loop F f h l a' s2
        end
  end.
Definition proc_attrs {A} (F : nat) (h : handlers A) (a : A) (s : st) : option (A * st) :=
  attrs_loop F F h (ln s) a s.

(** mqo/mqo_parser.go:127-140 *)
Fixpoint skip_block (fuel : nat) (s : st) : option st :=
  match fuel with
  | O => None
  | S f =>
      let (t, s1) := scan s in
      if is_eof t then Some s1
      else if String.eqb (text t) "}" then Some s1
      else if String.eqb (text t) "{" then
        match skip_block f s1 with Some s2 => skip_block f s2 | None => None end
      else skip_block f s1
  end.

(** mqo/mqo_parser.go:142-150 without the call of [init]; [elem] is applied [n] times *)
Fixpoint array_loop {A} (n : nat) (elem : A -> st -> option (A * st)) (a : A) (s : st) : option (A * st) :=
  match n with
  | O => Some (a, s)
  | S n => match elem a s with Some (a', s') => array_loop n elem a' s' | None => None end
  end.
Definition proc_array {A} (init : A -> A) (elem : A -> st -> option (A * st)) (a : A) (s : st) : option (A * st) :=
  let (n, s1) := read_int s in
  match array_loop (Z.to_nat n) elem (init a) (skip s1) with
  | Some (a', s2) => Some (a', skip s2)
  | None => None
  end.

(** mqo/mqo_parser.go:152-165 *)
Fixpoint obj_loop {A} (F fuel : nat) (h : handlers A) (a : A) (s : st) : option (A * st) :=
  match fuel with
  | O => None
  | S f =>
      let (t, s1) := scan s in
      if is_eof t then Some (a, s1)
      else if String.eqb (text t) "}" then Some (a, s1)
      else if String.eqb (text t) "{" then
        match skip_block F s1 with Some s2 => obj_loop F f h a s2 | None => None end
      else
        match h (text t) with
        | Some g => match g a s1 with Some (a', s2) => obj_loop F f h a' s2 | None => None end
        | None => obj_loop F f h a s1
        end
  end.
Definition proc_obj {A} (F : nat) (h : handlers A) (a : A) (s : st) : option (A * st) := obj_loop F F h a (skip s).

(** Handlers that read a value and store it. *)
Definition on {A B} (rd : st -> B * st) (set : A -> B -> A) : A -> st -> option (A * st) :=
  fun a s => let (b, s') := rd s in Some (set a b, s').
Definition read_vec (s : st) : vec3 T * st :=
  let (x, s) := read_float s in let (y, s) := read_float s in let (z, s) := read_float s in (mkV3 x y z, s).
Definition read_vec4 (s : st) : vec4 T * st :=
  let (x, s) := read_float s in let (y, s) := read_float s in let (z, s) := read_float s in
  let (w, s) := read_float s in (mkV4 x y z w, s).

Definition set_mt_emicol (m : material T) (c : vec3 T) := mkMat (mtName m) (mtUID m) (mtColor m) (mtDiffuse m) (mtAmbient m) (mtEmission m) (mtSpecular m) (mtPower m) (mtTexture m) (mtBump m) (mtAlpha m) (Some c) (mtDouble m) (mtShader m) (mtEx2 m).
Definition set_mt_dif (m : material T) (x : T) := mkMat (mtName m) (mtUID m) (mtColor m) x (mtAmbient m) (mtEmission m) (mtSpecular m) (mtPower m) (mtTexture m) (mtBump m) (mtAlpha m) (mtEmissionColor m) (mtDouble m) (mtShader m) (mtEx2 m).
Definition set_mt_amb (m : material T) (x : T) := mkMat (mtName m) (mtUID m) (mtColor m) (mtDiffuse m) x (mtEmission m) (mtSpecular m) (mtPower m) (mtTexture m) (mtBump m) (mtAlpha m) (mtEmissionColor m) (mtDouble m) (mtShader m) (mtEx2 m).
Definition set_mt_emi (m : material T) (x : T) := mkMat (mtName m) (mtUID m) (mtColor m) (mtDiffuse m) (mtAmbient m) x (mtSpecular m) (mtPower m) (mtTexture m) (mtBump m) (mtAlpha m) (mtEmissionColor m) (mtDouble m) (mtShader m) (mtEx2 m).
Definition set_mt_spc (m : material T) (x : T) := mkMat (mtName m) (mtUID m) (mtColor m) (mtDiffuse m) (mtAmbient m) (mtEmission m) x (mtPower m) (mtTexture m) (mtBump m) (mtAlpha m) (mtEmissionColor m) (mtDouble m) (mtShader m) (mtEx2 m).
Definition set_mt_power (m : material T) (x : T) := mkMat (mtName m) (mtUID m) (mtColor m) (mtDiffuse m) (mtAmbient m) (mtEmission m) (mtSpecular m) x (mtTexture m) (mtBump m) (mtAlpha m) (mtEmissionColor m) (mtDouble m) (mtShader m) (mtEx2 m).
Definition set_mt_tex (m : material T) (x : string) := mkMat (mtName m) (mtUID m) (mtColor m) (mtDiffuse m) (mtAmbient m) (mtEmission m) (mtSpecular m) (mtPower m) x (mtBump m) (mtAlpha m) (mtEmissionColor m) (mtDouble m) (mtShader m) (mtEx2 m).
Definition set_mt_bump (m : material T) (x : string) := mkMat (mtName m) (mtUID m) (mtColor m) (mtDiffuse m) (mtAmbient m) (mtEmission m) (mtSpecular m) (mtPower m) (mtTexture m) x (mtAlpha m) (mtEmissionColor m) (mtDouble m) (mtShader m) (mtEx2 m).
Definition set_mt_alpha (m : material T) (x : string) := mkMat (mtName m) (mtUID m) (mtColor m) (mtDiffuse m) (mtAmbient m) (mtEmission m) (mtSpecular m) (mtPower m) (mtTexture m) (mtBump m) x (mtEmissionColor m) (mtDouble m) (mtShader m) (mtEx2 m).
Definition set_mt_dbls (m : material T) (x : Z) := mkMat (mtName m) (mtUID m) (mtColor m) (mtDiffuse m) (mtAmbient m) (mtEmission m) (mtSpecular m) (mtPower m) (mtTexture m) (mtBump m) (mtAlpha m) (mtEmissionColor m) (negb (x =? 0)%Z) (mtShader m) (mtEx2 m).
Definition set_mt_uid (m : material T) (x : Z) := mkMat (mtName m) x (mtColor m) (mtDiffuse m) (mtAmbient m) (mtEmission m) (mtSpecular m) (mtPower m) (mtTexture m) (mtBump m) (mtAlpha m) (mtEmissionColor m) (mtDouble m) (mtShader m) (mtEx2 m).
Definition set_mt_shader (m : material T) (x : Z) := mkMat (mtName m) (mtUID m) (mtColor m) (mtDiffuse m) (mtAmbient m) (mtEmission m) (mtSpecular m) (mtPower m) (mtTexture m) (mtBump m) (mtAlpha m) (mtEmissionColor m) (mtDouble m) x (mtEx2 m).
Definition set_mt_ex2 (m : material T) (x : option (matex2 T)) := mkMat (mtName m) (mtUID m) (mtColor m) (mtDiffuse m) (mtAmbient m) (mtEmission m) (mtSpecular m) (mtPower m) (mtTexture m) (mtBump m) (mtAlpha m) (mtEmissionColor m) (mtDouble m) (mtShader m) x.
Definition empty_material (name : string) : material T :=
  mkMat name 0 (mkV4 nzero nzero nzero nzero) nzero nzero nzero nzero nzero "" "" "" None false 0 None.

(** mqo/mqo_parser.go:170-184 *)
Definition material_handlers : handlers (material T) := hmap [
  ("col", on read_vec4 set_mat_color); ("emi_col", on read_vec set_mt_emicol);
  ("dif", on read_float set_mt_dif); ("amb", on read_float set_mt_amb); ("emi", on read_float set_mt_emi);
  ("spc", on read_float set_mt_spc); ("power", on read_float set_mt_power);
  ("tex", on read_str set_mt_tex); ("aplane", on read_str set_mt_alpha); ("bump", on read_str set_mt_bump);
  ("dbls", on read_int set_mt_dbls); ("uid", on read_int set_mt_uid); ("shader", on read_int set_mt_shader)].
(** mqo/mqo_parser.go:167-186 *)
Definition read_material (F : nat) (s : st) : option (material T * st) :=
  let (n, s) := read_str s in proc_attrs F material_handlers (empty_material n) s.

(** Go maps: the last assignment to a key wins. *)
Definition map_set {V} (m : list (string * V)) (k : string) (v : V) : list (string * V) :=
  filter (fun p => negb (String.eqb (fst p) k)) m ++ [(k, v)].
(** mqo/mqo_parser.go:193-211 *)
Definition read_key (s : st) : string * string * st :=
  let (n, s) := read_str s in
  let (t, s) := read_ident s in
  if String.eqb t "." then
    let (n2, s) := read_str s in let (t2, s) := read_ident s in (n ++ t ++ n2, t2, s)
  else (n, t, s).
Definition read_typed (s : st) : string * param T * st :=
  let '(n, t, s) := read_key s in
  if String.eqb t "int" then let (z, s) := read_int s in (n, PInt z, s)
  else if String.eqb t "float" then let (x, s) := read_float s in (n, PFloat x, s)
  else if String.eqb t "bool" then let (v, s) := read_str s in (n, PBool (String.eqb v "true" || String.eqb v "1"), s)
  else if String.eqb t "color" then let (c, s) := read_vec4 s in (n, PColor [qx c; qy c; qz c; qw c], s)
  else let (v, s) := read_str s in (n, PStr v, s).
Definition set_ex_type (e : matex2 T) x : matex2 T := mkEx2 x (exName e) (exParams e) (exMapping e) (exMappingParams e).
Definition set_ex_name (e : matex2 T) x : matex2 T := mkEx2 (exType e) x (exParams e) (exMapping e) (exMappingParams e).
Definition set_ex_params (e : matex2 T) x : matex2 T := mkEx2 (exType e) (exName e) x (exMapping e) (exMappingParams e).
Definition set_ex_mapping (e : matex2 T) x : matex2 T := mkEx2 (exType e) (exName e) (exParams e) x (exMappingParams e).
Definition set_ex_mparams (e : matex2 T) x : matex2 T := mkEx2 (exType e) (exName e) (exParams e) (exMapping e) x.
(** mqo/mqo_parser.go:213-244 *)
Definition mapping_param_of (e : matex2 T) (n : string) : list (string * param T) :=
  match find (fun p => String.eqb (fst p) n) (exMappingParams e) with Some p => snd p | None => [] end.
Definition ex_handlers : handlers (matex2 T) := hmap [
  ("shadertype", on read_str set_ex_type); ("shadername", on read_str set_ex_name);
  ("shaderparam", proc_array (fun e => set_ex_params e [])
     (fun e s => let '(k, v, s) := read_typed s in Some (set_ex_params e (map_set (exParams e) k v), s)));
  ("shadermapping", proc_array (fun e => set_ex_mapping e [])
     (fun e s => let (k, s) := read_str s in let (v, s) := read_str s in
                 Some (set_ex_mapping e (map_set (exMapping e) k v), s)));
  ("shadermappingparam", fun e s =>
     let (n, s) := read_str s in
     proc_array (fun e => set_ex_mparams e (map_set (exMappingParams e) n []))
       (fun e s => let '(k, v, s) := read_typed s in
                   Some (set_ex_mparams e (map_set (exMappingParams e) n (map_set (mapping_param_of e n) k v)), s)) e s)].
(** mqo/mqo_parser.go:188-246 *)
Definition read_material_ex (F : nat) (s : st) : option (Z * matex2 T * st) :=
  let s := skip s in
  let (mid, s) := read_int s in
  match proc_obj F ex_handlers (mkEx2 "" "" [] [] []) s with
  | Some (e, s) => Some (mid, e, s)
  | None => None
  end.

(** mqo/mqo_parser.go:277-312: one face *)
Definition set_fUID (f : face T) x := mkFace x (fVerts f) (fMaterial f) (fUVs f) (fNormals f).
Definition set_fVerts (f : face T) x := mkFace (fUID f) x (fMaterial f) (fUVs f) (fNormals f).
Definition set_fMat (f : face T) x := mkFace (fUID f) (fVerts f) x (fUVs f) (fNormals f).
Definition set_fUVs (f : face T) x := mkFace (fUID f) (fVerts f) (fMaterial f) x (fNormals f).
Definition set_fNormals (f : face T) x := mkFace (fUID f) (fVerts f) (fMaterial f) (fUVs f) x.
Fixpoint read_n {B} (n : nat) (rd : st -> B * st) (s : st) : list B * st :=
  match n with
  | O => ([], s)
  | S n => let (b, s) := rd s in let (bs, s) := read_n n rd s in (b :: bs, s)
  end.
Definition read_uv (s : st) : vec2 T * st :=
  let (x, s) := read_float s in let (y, s) := read_float s in (mkV2 x y, s).
Fixpoint read_normals (flags : list Z) (s : st) : list (option (vec3 T)) * st :=
  match flags with
  | [] => ([], s)
  | f :: r =>
      let (n, s) := if negb (Z.land f 2 =? 0)%Z then let (v, s) := read_vec s in (Some v, s) else (None, s) in
      let (ns, s) := read_normals r s in (n :: ns, s)
  end.
Definition face_handlers (vn : nat) : handlers (face T) := hmap [
  ("V", on (read_n vn read_int) set_fVerts); ("M", on read_int set_fMat);
  ("UV", on (read_n vn read_uv) set_fUVs);
  ("N", on (fun s => let (fl, s) := read_n vn read_int s in read_normals fl s) set_fNormals);
  ("CRS", on (read_n vn read_float) (fun f _ => f)); ("UID", on read_int set_fUID)].
Definition read_face (F : nat) (s : st) : option (face T * st) :=
  let (vn, s) := read_int s in
  proc_attrs F (face_handlers (Z.to_nat vn)) (mkFace 0 [] 0 [] []) s.

Definition upd_obj (o : object T) (uid : Z) (vis : bool) (dep : Z) (fol : bool) (sha : Z) (fac : T) (pat seg mir : Z) (dis : T)
  (sc ro tr co : option (vec3 T)) (vs : list (vec3 T)) (fs : list (face T)) (ids : list (Z * Z)) : object T :=
  mkObj uid (oName o) vs fs vis (oLocked o) dep fol sha fac pat seg mir dis sc ro tr co ids (oInternal o).
(** mqo/mqo.go:278-286 *)
Definition new_object (name : string) : object T :=
  mkObj 0 name [] [] true false 0 false 1 facet0 0 0 0 nzero
    (Some (mkV3 none none none)) (Some (mkV3 nzero nzero nzero)) (Some (mkV3 nzero nzero nzero)) None [] None.
Definition so_uid (o : object T) x := upd_obj o x (oVisible o) (oDepth o) (oFolding o) (oShading o) (oFacet o) (oPatch o) (oPatchSegment o) (oMirror o) (oMirrorDis o) (oScale o) (oRotation o) (oTranslation o) (oColor o) (oVerts o) (oFaces o) (oVertexByUID o).
Definition so_visible (o : object T) (x : Z) := upd_obj o (oUID o) (0 <? x)%Z (oDepth o) (oFolding o) (oShading o) (oFacet o) (oPatch o) (oPatchSegment o) (oMirror o) (oMirrorDis o) (oScale o) (oRotation o) (oTranslation o) (oColor o) (oVerts o) (oFaces o) (oVertexByUID o).
Definition so_depth (o : object T) x := upd_obj o (oUID o) (oVisible o) x (oFolding o) (oShading o) (oFacet o) (oPatch o) (oPatchSegment o) (oMirror o) (oMirrorDis o) (oScale o) (oRotation o) (oTranslation o) (oColor o) (oVerts o) (oFaces o) (oVertexByUID o).
Definition so_folding (o : object T) (x : Z) := upd_obj o (oUID o) (oVisible o) (oDepth o) (0 <? x)%Z (oShading o) (oFacet o) (oPatch o) (oPatchSegment o) (oMirror o) (oMirrorDis o) (oScale o) (oRotation o) (oTranslation o) (oColor o) (oVerts o) (oFaces o) (oVertexByUID o).
Definition so_shading (o : object T) x := upd_obj o (oUID o) (oVisible o) (oDepth o) (oFolding o) x (oFacet o) (oPatch o) (oPatchSegment o) (oMirror o) (oMirrorDis o) (oScale o) (oRotation o) (oTranslation o) (oColor o) (oVerts o) (oFaces o) (oVertexByUID o).
Definition so_facet (o : object T) x := upd_obj o (oUID o) (oVisible o) (oDepth o) (oFolding o) (oShading o) x (oPatch o) (oPatchSegment o) (oMirror o) (oMirrorDis o) (oScale o) (oRotation o) (oTranslation o) (oColor o) (oVerts o) (oFaces o) (oVertexByUID o).
Definition so_patch (o : object T) x := upd_obj o (oUID o) (oVisible o) (oDepth o) (oFolding o) (oShading o) (oFacet o) x (oPatchSegment o) (oMirror o) (oMirrorDis o) (oScale o) (oRotation o) (oTranslation o) (oColor o) (oVerts o) (oFaces o) (oVertexByUID o).
Definition so_segment (o : object T) x := upd_obj o (oUID o) (oVisible o) (oDepth o) (oFolding o) (oShading o) (oFacet o) (oPatch o) x (oMirror o) (oMirrorDis o) (oScale o) (oRotation o) (oTranslation o) (oColor o) (oVerts o) (oFaces o) (oVertexByUID o).
Definition so_mirror (o : object T) x := upd_obj o (oUID o) (oVisible o) (oDepth o) (oFolding o) (oShading o) (oFacet o) (oPatch o) (oPatchSegment o) x (oMirrorDis o) (oScale o) (oRotation o) (oTranslation o) (oColor o) (oVerts o) (oFaces o) (oVertexByUID o).
Definition so_mirror_dis (o : object T) x := upd_obj o (oUID o) (oVisible o) (oDepth o) (oFolding o) (oShading o) (oFacet o) (oPatch o) (oPatchSegment o) (oMirror o) x (oScale o) (oRotation o) (oTranslation o) (oColor o) (oVerts o) (oFaces o) (oVertexByUID o).
Definition so_scale (o : object T) x := upd_obj o (oUID o) (oVisible o) (oDepth o) (oFolding o) (oShading o) (oFacet o) (oPatch o) (oPatchSegment o) (oMirror o) (oMirrorDis o) (Some x) (oRotation o) (oTranslation o) (oColor o) (oVerts o) (oFaces o) (oVertexByUID o).
Definition so_rotation (o : object T) x := upd_obj o (oUID o) (oVisible o) (oDepth o) (oFolding o) (oShading o) (oFacet o) (oPatch o) (oPatchSegment o) (oMirror o) (oMirrorDis o) (oScale o) (Some (yxz x)) (oTranslation o) (oColor o) (oVerts o) (oFaces o) (oVertexByUID o).
Definition so_translation (o : object T) x := upd_obj o (oUID o) (oVisible o) (oDepth o) (oFolding o) (oShading o) (oFacet o) (oPatch o) (oPatchSegment o) (oMirror o) (oMirrorDis o) (oScale o) (oRotation o) (Some x) (oColor o) (oVerts o) (oFaces o) (oVertexByUID o).
Definition so_color (o : object T) x := upd_obj o (oUID o) (oVisible o) (oDepth o) (oFolding o) (oShading o) (oFacet o) (oPatch o) (oPatchSegment o) (oMirror o) (oMirrorDis o) (oScale o) (oRotation o) (oTranslation o) (Some x) (oVerts o) (oFaces o) (oVertexByUID o).
Definition so_verts (o : object T) x := upd_obj o (oUID o) (oVisible o) (oDepth o) (oFolding o) (oShading o) (oFacet o) (oPatch o) (oPatchSegment o) (oMirror o) (oMirrorDis o) (oScale o) (oRotation o) (oTranslation o) (oColor o) x (oFaces o) (oVertexByUID o).
Definition so_faces (o : object T) x := upd_obj o (oUID o) (oVisible o) (oDepth o) (oFolding o) (oShading o) (oFacet o) (oPatch o) (oPatchSegment o) (oMirror o) (oMirrorDis o) (oScale o) (oRotation o) (oTranslation o) (oColor o) (oVerts o) x (oVertexByUID o).
Definition so_ids (o : object T) x := upd_obj o (oUID o) (oVisible o) (oDepth o) (oFolding o) (oShading o) (oFacet o) (oPatch o) (oPatchSegment o) (oMirror o) (oMirrorDis o) (oScale o) (oRotation o) (oTranslation o) (oColor o) (oVerts o) (oFaces o) x.

(** mqo/mqo_parser.go:315-325: [o.VertexByUID[p.readInt()] = i]; the newest entry comes first
    so that [assoc] finds the last assignment *)
Fixpoint read_uids (n : nat) (i : Z) (o : object T) (s : st) : object T * st :=
  match n with
  | O => (o, s)
  | S n => let (u, s) := read_int s in read_uids n (i + 1)%Z (so_ids o ((u, i) :: oVertexByUID o)) s
  end.
Definition vertexattr_handlers : handlers (object T) := hmap [
  ("uid", fun o s => let (o, s) := read_uids (length (oVerts o)) 0 o (skip s) in Some (o, skip s))].
(** mqo/mqo_parser.go:251-326.  [vertex] and [face] append to an emptied list instead of
    filling a preallocated one. *)
Definition object_handlers (F : nat) : handlers (object T) := hmap [
  ("uid", on read_int so_uid); ("depth", on read_int so_depth); ("folding", on read_int so_folding);
  ("visible", on read_int so_visible); ("shading", on read_int so_shading); ("facet", on read_float so_facet);
  ("patch", on read_int so_patch); ("segment", on read_int so_segment); ("mirror", on read_int so_mirror);
  ("mirror_dis", on read_float so_mirror_dis); ("scale", on read_vec so_scale); ("rotation", on read_vec so_rotation);
  ("translation", on read_vec so_translation); ("color", on read_vec so_color);
  ("vertex", proc_array (fun o => so_verts o []) (on read_vec (fun o v => so_verts o (oVerts o ++ [v]))));
  ("face", proc_array (fun o => so_faces o [])
     (fun o s => match read_face F s with Some (f, s) => Some (so_faces o (oFaces o ++ [f]), s) | None => None end));
  ("vertexattr", proc_obj F vertexattr_handlers)].
(** mqo/mqo_parser.go:248-328 *)
Definition read_object (F : nat) (s : st) : option (object T * st) :=
  let (n, s) := read_str s in proc_obj F (object_handlers F) (new_object n) s.

(** mqo/mqo_parser.go:363-377 *)
Definition sc_rot (s : scene) r := mkScene (scPos s) (scLook s) r (scZoom2 s) (scFront s) (scBack s) (scOrtho s) (scAmb s).
Definition scene_handlers : handlers scene := hmap [
  ("pos", on read_vec (fun s v => mkScene v (scLook s) (scRot s) (scZoom2 s) (scFront s) (scBack s) (scOrtho s) (scAmb s)));
  ("lookat", on read_vec (fun s v => mkScene (scPos s) v (scRot s) (scZoom2 s) (scFront s) (scBack s) (scOrtho s) (scAmb s)));
  ("head", on read_float (fun s x => sc_rot s (mkV3 (vx (scRot s)) x (vz (scRot s)))));
  ("pich", on read_float (fun s x => sc_rot s (mkV3 x (vy (scRot s)) (vz (scRot s)))));
  ("bank", on read_float (fun s x => sc_rot s (mkV3 (vx (scRot s)) (vy (scRot s)) x)));
  ("zoom2", on read_float (fun s x => mkScene (scPos s) (scLook s) (scRot s) x (scFront s) (scBack s) (scOrtho s) (scAmb s)));
  ("ortho", on read_int (fun s x => mkScene (scPos s) (scLook s) (scRot s) (scZoom2 s) (scFront s) (scBack s) (0 <? x)%Z (scAmb s)));
  ("frontclip", on read_float (fun s x => mkScene (scPos s) (scLook s) (scRot s) (scZoom2 s) x (scBack s) (scOrtho s) (scAmb s)));
  ("backclip", on read_float (fun s x => mkScene (scPos s) (scLook s) (scRot s) (scZoom2 s) (scFront s) x (scOrtho s) (scAmb s)));
  ("amb", on read_vec (fun s v => mkScene (scPos s) (scLook s) (scRot s) (scZoom2 s) (scFront s) (scBack s) (scOrtho s) (Some v)))].
Definition zero3 : vec3 T := mkV3 nzero nzero nzero.
Definition empty_scene : scene := mkScene zero3 zero3 zero3 nzero nzero nzero false None.

Definition td_mats (d : text_doc) ms := mkTD (tdInclude d) (tdScene d) (mkDocument ms (dObjects (tdDoc d))).
Definition td_objs (d : text_doc) os := mkTD (tdInclude d) (tdScene d) (mkDocument (dMaterials (tdDoc d)) os).
(** mqo/mqo_parser.go:356-362 *)
Definition put_ex (ms : list (material T)) (mid : Z) (e : matex2 T) : list (material T) :=
  if (0 <=? mid)%Z then list_upd ms (Z.to_nat mid) (fun m => set_mt_ex2 m (Some e)) else ms.
(** mqo/mqo_parser.go:345-385; [scanner.Ident] tokens only.  Scanner errors (unterminated
    strings and so on) and the reading of the .mqx file are not modelled. *)
Fixpoint main_loop (F fuel : nat) (d : text_doc) (s : st) : option text_doc :=
  match fuel with
  | O => None
  | S f =>
      let (t, s) := scan s in
      match t with
      | TEOF => Some d
      | TId w =>
          if String.eqb w "Material" then
            match proc_array (fun d => d) (fun d s => match read_material F s with
                    | Some (m, s) => Some (td_mats d (dMaterials (tdDoc d) ++ [m]), s) | None => None end) d s with
            | Some (d, s) => main_loop F f d s | None => None end
          else if String.eqb w "Object" then
            match read_object F s with
            | Some (o, s) => main_loop F f (td_objs d (dObjects (tdDoc d) ++ [o])) s | None => None end
          else if String.eqb w "Thumbnail" then
            match skip_block F (skip (skip_n 5 s)) with Some s => main_loop F f d s | None => None end
          else if String.eqb w "MaterialEx2" then
            match proc_array (fun d => d) (fun d s => match read_material_ex F s with
                    | Some (mid, e, s) => Some (td_mats d (put_ex (dMaterials (tdDoc d)) mid e), s) | None => None end) d s with
            | Some (d, s) => main_loop F f d s | None => None end
          else if String.eqb w "Scene" then
            match proc_obj F scene_handlers empty_scene s with
            | Some (sc, s) => main_loop F f (mkTD (tdInclude d) (Some sc) (tdDoc d)) s | None => None end
          else if String.eqb w "IncludeXml" then
            let (n, s) := read_str s in
            main_loop F f (mkTD (if String.eqb n "" then None else Some n) (tdScene d) (tdDoc d)) s
          else if String.eqb w "Eof" then Some d
          else main_loop F f d s
      | _ => main_loop F f d s
      end
  end.
(** mqo/mqo_parser.go:339-399; every loop round consumes a token, so this is fuel enough *)
Definition parse_toks (ts : list tok) : option text_doc :=
  let F := (100 + length ts)%nat in
  main_loop F F (mkTD None None (mkDocument [] [])) (St 1 ts).
End Text.
Arguments scene T : clear implicits.
Arguments text_doc T : clear implicits.
