(** What libyaml delivers for a YAML text, and what a reader of tokens is to see of it.  Nothing here runs YamlParser. *)
From Coq Require Import ZArith List Bool.
From Verif Require Import Model.Base Model.Yaml Spec.Json.
Import ListNotations.

(** ** libyaml's event streams (yaml.h: the grammar of events).  A node may be anything also as a key. *)
Inductive ynode := NScal (s : list Z) | NAlias | NSeq (l : list ynode) | NMap (l : list (ynode * ynode)).

Fixpoint node_events (n : ynode) : list yev :=
  match n with
  | NScal s => [YScalar s]
  | NAlias => [YAlias]
  | NSeq l => YSeqStart :: flat_map node_events l ++ [YSeqEnd]
  | NMap l => YMapStart :: flat_map (fun kv => node_events (fst kv) ++ node_events (snd kv)) l ++ [YMapEnd]
  end.
Definition doc_events (n : ynode) : list yev := YDocStart :: node_events n ++ [YDocEnd].
Definition stream_events (docs : list ynode) : list yev := YStreamStart :: flat_map doc_events docs ++ [YStreamEnd].

(** ** The documents that have the form of a JSON document: no aliases, all keys are scalars. *)
Fixpoint node_of (j : tree (list Z)) : ynode :=
  match j with
  | Scal s => NScal s
  | Arr l => NSeq (map node_of l)
  | Obj l => NMap (map (fun kv => (NScal (fst kv), node_of (snd kv))) l)
  end.

(** What the tokens of a document are, with the text of the keys and values. *)
Inductive item := IDocS | IDocE | IMapS | IMapE | IArrS | IArrE | IKey (k : list Z) | IVal (s : list Z).
Fixpoint items (j : tree (list Z)) : list item :=
  match j with
  | Scal s => [IVal s]
  | Arr l => IArrS :: flat_map items l ++ [IArrE]
  | Obj l => IMapS :: flat_map (fun kv => IKey (fst kv) :: items (snd kv)) l ++ [IMapE]
  end.
Definition doc_items (j : tree (list Z)) : list item := IDocS :: items j ++ [IDocE].
