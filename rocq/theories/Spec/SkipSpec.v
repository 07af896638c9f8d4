(** Parts of an MQO text that say nothing to this program. *)
From Coq Require Import String Ascii List.
From Verif.Model Require Import MqoText.
Import ListNotations.
Local Open Scope string_scope.
Local Open Scope list_scope.

(** Every bracket that is opened is closed. *)
Inductive balanced : list tok -> Prop :=
| bal_nil : balanced []
| bal_tok t ts : text t <> "{" -> text t <> "}" -> t <> TEOF -> balanced ts -> balanced (t :: ts)
| bal_block a b : balanced a -> balanced b -> balanced (TCh "{" :: a ++ TCh "}" :: b).

(** The chunks this program reads. *)
Definition known_chunks : list string := ["Material"; "Object"; "Thumbnail"; "MaterialEx2"; "Scene"; "IncludeXml"; "Eof"].
Definition quiet (t : tok) : Prop := t <> TEOF /\ forall w, t = TId w -> ~ In w known_chunks.
(** Tokens between the chunks: whatever does not have the name of a known chunk, and thumbnails, which have five words and a block. *)
Inductive ignorable : list tok -> Prop :=
| ig_nil : ignorable []
| ig_tok t ts : quiet t -> ignorable ts -> ignorable (t :: ts)
| ig_thumb ws b ts : length ws = 5 -> (forall w, In w ws -> w <> TNL) -> balanced b -> ignorable ts ->
    ignorable (TId "Thumbnail" :: ws ++ TCh "{" :: b ++ TCh "}" :: ts).

(** An item of a block with a name and arguments none of which is a name the block knows, maybe with a block of its own. *)
Definition unknown_word {A} (h : handlers A) (t : tok) : Prop :=
  text t <> "{" /\ text t <> "}" /\ t <> TEOF /\ (t = TNL \/ h (text t) = None).
Inductive unknown_item {A} (h : handlers A) : list tok -> Prop :=
| un_words ws : (forall t, In t ws -> unknown_word h t) -> unknown_item h ws
| un_block ws b : (forall t, In t ws -> unknown_word h t) -> balanced b -> unknown_item h (ws ++ TCh "{" :: b ++ [TCh "}"]).
