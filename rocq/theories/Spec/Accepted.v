(** Which texts the JSON reader takes for the lexemes of a document.  The lexeme numbers are those of Spec/Lexemes.v. *)
From Coq Require Import ZArith List.
From Verif Require Import Model.Source Model.ParserInterface Model.Importer Spec.JsonString Spec.Json Spec.Lexemes Spec.Import.
Import ListNotations.
Open Scope Z_scope.

(** The text of an integer.  From a string: an optional minus sign and digits.  From a stream: a minus sign may stand before another
    sign, and the digits may be missing behind a sign.  A 0 in front of another digit that is not 0 is refused. *)
Inductive int_text : skind -> list Z -> Prop :=
| it_string : forall sg ds, sg = [] \/ sg = [45] -> digits ds -> int_text StrIn (sg ++ ds)
| it_stream : forall sg sg' ds, sg = [] \/ sg = [45] -> sg' = [] \/ sg' = [45] \/ sg' = [43] -> Forall digit ds -> sg' ++ ds <> [] ->
    int_text Strm (sg ++ sg' ++ ds).
Definition zero_led (x : list Z) : Prop := exists d r, x = 48 :: d :: r /\ 49 <= d <= 57.

(** A lexeme whose value is used.  Only the first letter of null is looked at. *)
Inductive taken (k : skind) (conv : bool) : nat -> list Z -> Prop :=
| tk_punct : forall c n, starts_lexeme c n -> (n <= 6)%nat -> taken k conv n [c]
| tk_true : taken k conv 7 [116; 114; 117; 101]
| tk_false : taken k conv 8 [102; 97; 108; 115; 101]
| tk_null : forall a b c, taken k conv 9 [110; a; b; c]
| tk_string : forall raw, closed_by raw [] (raw ++ [34]) -> (conv = true -> json_string_lone_low raw) ->
    taken k conv 10 (34 :: raw ++ [34])
| tk_int : forall x, int_text k x -> ~ zero_led x -> taken k conv 13 x.

(** A lexeme that is skipped.  Of a literal only the first letter is looked at.  A string ends with the first quote that does not
    follow a backslash.  A number may begin with a plus sign, and a byte 255 behind it is lost. *)
Inductive skipped (k : skind) : nat -> list Z -> Prop :=
| sk_true : forall a b c, skipped k 7 [116; a; b; c]
| sk_false : forall a b c d, skipped k 8 [102; a; b; c; d]
| sk_null : forall a b c, skipped k 9 [110; a; b; c]
| sk_string : forall raw, (forall a b, raw = a ++ 34 :: b -> exists a', a = a' ++ [92]) -> skip_safe k raw ->
    skipped k 10 (34 :: raw ++ [34])
| sk_number : forall sg i f e x, sg = [] \/ sg = [43] \/ sg = [45] -> int_part i -> frac_part f -> exp_part e -> x = [] \/ x = [255] ->
    skipped k 13 (sg ++ i ++ f ++ e ++ x).

(** What is taken for a lexeme under a configuration: only in the mode Weak are values skipped. *)
Definition lexeme (cfg : pconfig) (k : skind) (n : nat) (x : list Z) : Prop :=
  taken k (pc_conv cfg) n x \/ (pc_strict cfg = Weak /\ skipped k n x).

(** A text that consists of lexemes, with white space in front of each. *)
Inductive lexes (L : nat -> list Z -> Prop) : list nat -> list Z -> Prop :=
| lx_nil : lexes L [] []
| lx_snoc : forall ls a n w x, lexes L ls a -> blank w -> L n x -> lexes L (ls ++ [n]) (a ++ w ++ x).

(** The first character that is not white space is not punctuation: the document is a single scalar. *)
Definition scalar_root (text : list Z) : Prop :=
  exists w c r, text = w ++ c :: r /\ blank w /\ ~ blank [c] /\ ~ In c [123; 125; 91; 93; 44; 58].
(** An object or an array. *)
Definition container (j : jv) : Prop := match j with Scal _ => False | _ => True end.
