(** The two kinds of input a parser reads from: StringInput (a std::string_view) and a seekable
    std::istream (std::stringstream, std::ifstream).

    Simplifications: positions are natural numbers (std::size_t in C++; they never exceed the input
    size by more than the largest constant passed to ignore); moving back from position 0 is reported
    as [UB] for the string input (size_t wrap-around).  The istream is modelled as its remaining text
    plus eofbit and failbit (badbit is folded into failbit).  Reading of "the character at
    position = size" is never done by these operations. *)
From Coq Require Import ZArith List Bool.
From Verif Require Import Model.Base.
Import ListNotations.
Open Scope Z_scope.

Inductive skind := StrIn | Strm.

Record src := mkSrc {
  s_kind : skind;
  s_data : bytes;
  s_pos  : nat;
  s_good : bool;     (* StringInput::good / !istream::fail() *)
  s_eof  : bool      (* istream eofbit; always false for StringInput *)
}.

Definition src_init (k : skind) (d : bytes) : src := mkSrc k d O true false.

Definition set_pos (s : src) (p : nat) : src := mkSrc (s_kind s) (s_data s) p (s_good s) (s_eof s).
Definition set_good (s : src) (g : bool) : src := mkSrc (s_kind s) (s_data s) (s_pos s) g (s_eof s).
Definition set_flags (s : src) (g e : bool) : src := mkSrc (s_kind s) (s_data s) (s_pos s) g e.

Definition s_size (s : src) : nat := length (s_data s).
(** The unread text. *)
Definition s_rest (s : src) : bytes := skipn (s_pos s) (s_data s).
(** istream::good(). *)
Definition strm_good (s : src) : bool := s_good s && negb (s_eof s).

(** ParserInterface::get (ParserInterface.h:233-241):
    StringInput::get (StringInput.h:74-77) returns the (signed) char, istream::get the byte. *)
Definition src_get (s : src) : Z * src :=
  match s_kind s with
  | StrIn =>
      if s_good s then
        match s_rest s with
        | c :: _ => (schar c, set_pos s (S (s_pos s)))
        | [] => (EOFc, s)
        end
      else (EOFc, s)
  | Strm =>
      if strm_good s then
        match s_rest s with
        | c :: _ => (c, set_pos s (S (s_pos s)))
        | [] => (EOFc, set_flags s false true)
        end
      else (EOFc, set_good s false)
  end.

(** ParserInterface::peek (ParserInterface.h:242-250), StringInput::peek (StringInput.h:78-81). *)
Definition src_peek (s : src) : Z * src :=
  match s_kind s with
  | StrIn =>
      match s_rest s with
      | c :: _ => (schar c, s)
      | [] => (EOFc, s)
      end
  | Strm =>
      if strm_good s then
        match s_rest s with
        | c :: _ => (c, s)
        | [] => (EOFc, set_flags s (s_good s) true)
        end
      else (EOFc, set_good s false)
  end.

(** ParserInterface::unget (ParserInterface.h:270-278), StringInput::unget (StringInput.h:91-95).
    istream::unget clears eofbit first. *)
Definition src_unget (s : src) : outcome src :=
  match s_kind s with
  | StrIn =>
      match s_pos s with
      | O => UB
      | S p => Ok (mkSrc StrIn (s_data s) p (Nat.leb p (s_size s)) false)
      end
  | Strm =>
      if s_good s then
        match s_pos s with
        | O => Ok (set_flags s false false)
        | S p => Ok (mkSrc Strm (s_data s) p true false)
        end
      else Ok (set_flags s false false)
  end.

(** ParserInterface::ignore (ParserInterface.h:251-260), StringInput::ignore (StringInput.h:82-86). *)
Definition src_ignore (s : src) (n : nat) : src :=
  match s_kind s with
  | StrIn =>
      let p := (s_pos s + n)%nat in
      mkSrc StrIn (s_data s) p (Nat.leb p (s_size s)) false
  | Strm =>
      if strm_good s then
        if Nat.leb n (length (s_rest s)) then set_pos s (s_pos s + n)
        else mkSrc Strm (s_data s) (s_size s) true true
      else set_good s false
  end.

(** ParserInterface::read (ParserInterface.h:183-193), StringInput::read (StringInput.h:35-44).
    Returns the bytes actually copied into the destination.  [data.size() - position] wraps when the
    position is beyond the end: the copy then runs outside the view. *)
Definition src_read (s : src) (n : nat) : outcome (bytes * src) :=
  match s_kind s with
  | StrIn =>
      if Nat.ltb (s_size s) (s_pos s) then UB
      else
        let got := firstn n (s_rest s) in
        Ok (got, mkSrc StrIn (s_data s) (s_pos s + length got) true false)
  | Strm =>
      if strm_good s then
        let got := firstn n (s_rest s) in
        let p := (s_pos s + length got)%nat in
        if Nat.ltb (length got) n then Ok (got, mkSrc Strm (s_data s) p false true)
        else Ok (got, mkSrc Strm (s_data s) p true false)
      else Ok ([], set_good s false)
  end.

(** Text before the first [delim], and whether the delimiter was found. *)
Fixpoint split_at (delim : Z) (s : bytes) : bytes * bool :=
  match s with
  | [] => ([], false)
  | c :: r => if c =? delim then ([], true)
              else let '(a, f) := split_at delim r in (c :: a, f)
  end.

(** ParserInterface::readTo (ParserInterface.h:194-204).
    StringInput::readTo (StringInput.h:45-61) on a cleared destination: when the position is beyond the
    end the size [find - position] wraps and std::string::resize throws std::length_error.
    istream: std::getline; if the stream is not good() the destination keeps its old contents [dst]. *)
Definition src_readTo (s : src) (dst : bytes) (delim : Z) : outcome (bytes * src) :=
  match s_kind s with
  | StrIn =>
      if Nat.ltb (s_size s) (s_pos s) then Throw
      else
        let '(a, f) := split_at delim (s_rest s) in
        let p := (s_pos s + S (length a))%nat in
        Ok (a, mkSrc StrIn (s_data s) p (Nat.leb p (s_size s)) false)
  | Strm =>
      if strm_good s then
        let '(a, f) := split_at delim (s_rest s) in
        if f then Ok (a, mkSrc Strm (s_data s) (s_pos s + S (length a)) true false)
        else Ok (a, mkSrc Strm (s_data s) (s_size s)
                     (match a with [] => false | _ => true end) true)
      else Ok (dst, set_good s false)
  end.

(** ParserInterface::readValue(char&) (ParserInterface.h:311-320), StringInput::readValue(char&)
    (StringInput.h:134-145) and istream >> char (skips white space).
    Result: was the read successful, the character (-1 when there is none). *)
Definition src_readChar (s : src) : (bool * Z) * src :=
  match s_kind s with
  | StrIn =>
      let '(n, r) := skip_space (s_rest s) in
      match r with
      | c :: _ =>
          let p := S (s_pos s + n) in
          ((true, schar c), mkSrc StrIn (s_data s) p (Nat.leb p (s_size s)) false)
      | [] => ((true, EOFc), mkSrc StrIn (s_data s) (S (s_size s)) false false)
      end
  | Strm =>
      if strm_good s then
        let '(n, r) := skip_space (s_rest s) in
        match r with
        | c :: _ => ((true, schar c), mkSrc Strm (s_data s) (S (s_pos s + n)) true false)
        | [] => ((false, EOFc), mkSrc Strm (s_data s) (s_size s) false true)
        end
      else ((false, EOFc), set_good s false)
  end.

(** PeekNextNonSpaceValue::checkAction (ParserInterface.h:97-112). *)
Definition is_punct (c : Z) : bool :=
  (c =? 123) || (c =? 125) || (c =? 91) || (c =? 93) || (c =? 44) || (c =? 58).

(** PeekNextNonSpaceValue (ParserInterface.h:95-129). *)
Definition src_peekNextNonSpace (s : src) : outcome (Z * src) :=
  let '((okr, c), s1) := src_readChar s in
  if okr then
    if is_punct c then Ok (c, s1)
    else do s2 <- src_unget s1; Ok (c, s2)
  else Ok (c, s1).

(** ParserInterface::ok / clear / setFail (ParserInterface.h:261-296). *)
Definition src_ok (s : src) : bool := s_good s.
Definition src_clear (s : src) : src := set_flags s true false.
Definition src_setFail (s : src) : src := set_good s false.

