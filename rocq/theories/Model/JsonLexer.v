(** JsonManualLexer. *)
From Coq Require Import ZArith List Bool String.
From Verif Require Import Model.Base Model.Source Model.Unicode Model.Number.
Import ListNotations.
Open Scope Z_scope.

(** Values of lastToken (JsonManualLexer.cpp:20-56, JsonLexemes.h). [LNone]: not set yet. *)
Inductive ltok := LNone | LPunct (c : Z) | LTrue | LFalse | LNull | LNumber | LString.

(** Data members of JsonManualLexer (JsonManualLexer.h:19-23) together with the input. *)
Record jlex := mkLex {
  l_src  : src;
  l_buf  : bytes;
  l_tok  : ltok;
  l_bool : bool;
  l_null : bool
}.

Definition lex_init (s : src) : jlex := mkLex s [] LNone false false.

Definition lset_src (l : jlex) (s : src) : jlex := mkLex s (l_buf l) (l_tok l) (l_bool l) (l_null l).
Definition lset_buf (l : jlex) (b : bytes) : jlex := mkLex (l_src l) b (l_tok l) (l_bool l) (l_null l).

(** yylex (JsonManualLexer.cpp:15-57).  Returns the lexeme number. *)
Definition yylex (l : jlex) : outcome (nat * jlex) :=
  do (c, s) <- src_peekNextNonSpace (l_src l);
  let mk t b n := mkLex s (l_buf l) t b n in
  let lb := l_bool l in
  if c =? 123 then Ok (1%nat, mk (LPunct c) lb false)
  else if c =? 125 then Ok (2%nat, mk (LPunct c) lb false)
  else if c =? 91 then Ok (3%nat, mk (LPunct c) lb false)
  else if c =? 93 then Ok (4%nat, mk (LPunct c) lb false)
  else if c =? 44 then Ok (5%nat, mk (LPunct c) lb false)
  else if c =? 58 then Ok (6%nat, mk (LPunct c) lb false)
  else if c =? 116 then Ok (7%nat, mk LTrue true false)
  else if c =? 102 then Ok (8%nat, mk LFalse false false)
  else if c =? 110 then Ok (9%nat, mk LNull lb true)
  else if c =? 34 then Ok (10%nat, mk LString lb false)
  else Ok (13%nat, mk LNumber lb false).

(** The string skipping loop of ignoreRawValue (JsonManualLexer.cpp:88-99).  [last] and the characters are chars. *)
Fixpoint skip_string_loop (fuel : nat) (last next : Z) (s : src) : outcome src :=
  match fuel with
  | O => Hang
  | S f =>
      if (next =? EOFc) then Throw
      else if (next =? 34) && negb (last =? 92) then Ok s
      else let '(n, s') := src_get s in skip_string_loop f next n s'
  end.

(** Conversion of the int returned by get() to char (-1 stays -1). *)
Definition to_char (z : Z) : Z := if z <? 128 then z else z - 256.

(** readDigits (JsonManualLexer.cpp:243-255).  Parameter, local variable and result are chars;
    std::isdigit of a negative char counts as false. *)
Fixpoint read_digits_loop (fuel : nat) (next : Z) (buf : bytes) (s : src) : outcome (Z * bytes * src) :=
  match fuel with
  | O => Hang
  | S f =>
      if is_digit next then
        let '(n, s') := src_get s in read_digits_loop f (to_char n) (buf ++ [next]) s'
      else Ok (next, buf, s)
  end.
Definition readDigits (fuel : nat) (next : Z) (buf : bytes) (s : src) : outcome (Z * bytes * src) :=
  if is_digit (to_char next) then read_digits_loop fuel (to_char next) buf s else Throw.

(** readNumber (JsonManualLexer.cpp:258-311). *)
Definition lex_readNumber (fuel : nat) (l : jlex) : outcome jlex :=
  let '(next, s) := src_get (l_src l) in
  let buf := [] in
  do (next, buf, s) <-
    (if (next =? 45) || (next =? 43) then
       let '(n, s') := src_get s in
       if n =? EOFc then Throw else Ok (n, buf ++ [next], s')
     else Ok (next, buf, s));
  do (next, buf, s) <-
    (if next =? 48 then let '(n, s') := src_get s in Ok (n, buf ++ [next], s')
     else readDigits fuel next buf s);
  do (next, buf, s) <-
    (if next =? 46 then
       let '(n, s') := src_get s in
       if n =? EOFc then Throw else readDigits fuel n (buf ++ [next]) s'
     else Ok (next, buf, s));
  do (next, buf, s) <-
    (if (next =? 101) || (next =? 69) then
       let '(n, s') := src_get s in
       let buf := buf ++ [next] in
       if n =? EOFc then Throw else
       do (n, buf, s') <-
         (if (n =? 45) || (n =? 43) then
            let '(n2, s2) := src_get s' in
            if n2 =? EOFc then Throw else Ok (n2, buf ++ [n], s2)
          else Ok (n, buf, s'));
       readDigits fuel n buf s'
     else Ok (next, buf, s));
  do s <- (if next =? EOFc then Ok s else src_unget s);
  Ok (lset_buf (lset_src l s) buf).

(** ignoreRawValue (JsonManualLexer.cpp:78-103). *)
Definition ignoreRawValue (fuel : nat) (l : jlex) : outcome jlex :=
  match l_tok l with
  | LTrue => Ok (lset_src l (src_ignore (l_src l) 4))
  | LFalse => Ok (lset_src l (src_ignore (l_src l) 5))
  | LNull => Ok (lset_src l (src_ignore (l_src l) 4))
  | LNumber => lex_readNumber fuel l
  | LString =>
      let '(last, s1) := src_get (l_src l) in
      let '(next, s2) := src_get s1 in
      do s3 <- skip_string_loop fuel last next s2;
      Ok (lset_src l s3)
  | _ => Ok l
  end.

(** getRawString (JsonManualLexer.cpp:106-160): the string loop. *)
Fixpoint raw_string_loop (fuel : nat) (last next : Z) (buf : bytes) (s : src) : outcome (bytes * src) :=
  match fuel with
  | O => Hang
  | S f =>
      if next =? EOFc then Throw
      else if (next =? 34) && negb (last =? 92) then Ok (buf ++ [34], s)
      else if next <? 32 then Throw
      else let '(n, s') := src_get s in raw_string_loop f next n (buf ++ [next]) s'
  end.
Definition getRawString (fuel : nat) (l : jlex) : outcome (bytes * jlex) :=
  match l_tok l with
  | LPunct c => Ok ([c], l)
  | LTrue => Ok (bs "true", lset_src l (src_ignore (l_src l) 4))
  | LFalse => Ok (bs "false", lset_src l (src_ignore (l_src l) 5))
  | LNull => Ok (bs "null", lset_src l (src_ignore (l_src l) 4))
  | LNumber => do l' <- lex_readNumber fuel l; Ok (l_buf l', l')
  | LString =>
      let '(last, s1) := src_get (l_src l) in
      let '(next, s2) := src_get s1 in
      do (b, s3) <- raw_string_loop fuel last next [last] s2;
      Ok (b, lset_buf (lset_src l s3) b)
  | LNone => Throw
  end.

(** checkEscape (JsonManualLexer.cpp:163-171): an odd number of trailing backslashes. *)
Fixpoint check_escape_rev (r : bytes) : bool :=
  match r with
  | c :: r' => if c =? 92 then negb (check_escape_rev r') else false
  | [] => false
  end.
Definition checkEscape (s : bytes) : bool := check_escape_rev (rev s).

(** The do-while loop of getStringInto (JsonManualLexer.cpp:188-198).  [tmp] is the chunk read last. *)
Fixpoint string_loop (fuel : nat) (value tmp : bytes) (s : src) : outcome (bytes * src) :=
  match fuel with
  | O => Hang
  | S f =>
      do (tmp', s') <- src_readTo s tmp 34;
      let value' := value ++ [34] ++ tmp' in
      if checkEscape tmp' then string_loop f value' tmp' s' else Ok (value', s')
  end.

(** getStringInto (JsonManualLexer.cpp:174-206); [conv] is config.convertBackSlash.  The old contents of the
    destination are irrelevant: the stream is good after a successful get(). *)
Definition getStringInto (fuel : nat) (conv : bool) (l : jlex) : outcome (bytes * jlex) :=
  let '(next, s) := src_get (l_src l) in
  if negb (next =? 34) then Throw
  else
    do (value, s1) <- src_readTo s [] 34;
    do (value, s2) <- (if checkEscape value then string_loop fuel value [] s1 else Ok (value, s1));
    do value <- (if conv then unescape_inplace value else Ok value);
    Ok (value, lset_src l s2).

(** getString (JsonManualLexer.cpp:209-213): as above, into the lexer's buffer. *)
Definition getString (fuel : nat) (conv : bool) (l : jlex) : outcome (bytes * jlex) :=
  do (v, l') <- getStringInto fuel conv l;
  Ok (v, lset_buf l' v).

(** buffer.resize(n): keep a prefix or pad with NUL. *)
Definition resize (b : bytes) (n : nat) : bytes := firstn n b ++ repeat 0 (n - List.length b).

(** checkFixed (JsonManualLexer.cpp:314-322): a short read leaves the old buffer contents behind it. *)
Definition checkFixed (l : jlex) (check : bytes) : outcome jlex :=
  let n := List.length check in
  let b := resize (l_buf l) n in
  do (got, s) <- src_read (l_src l) n;
  let b' := got ++ skipn (List.length got) b in
  if beq b' check then Ok (lset_buf (lset_src l s) b') else Throw.

(** getLastBool (JsonManualLexer.cpp:216-234). *)
Definition getLastBool (l : jlex) : outcome (bool * jlex) :=
  match l_tok l with
  | LTrue => do l' <- checkFixed l (bs "true"); Ok (l_bool l', l')
  | LFalse => do l' <- checkFixed l (bs "false"); Ok (l_bool l', l')
  | _ => Throw
  end.

(** isLastNull (JsonManualLexer.cpp:237-240). *)
Definition isLastNull (l : jlex) : bool := l_null l.

(** scan<integer> (JsonManualLexer.h:48-61). *)
Definition lex_scanInt (t : ity) (l : jlex) : outcome (Z * jlex) :=
  do (z, s) <- src_scanInt t (l_src l); Ok (z, lset_src l s).
