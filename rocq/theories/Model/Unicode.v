(** String escaping and unescaping. *)
From Coq Require Import ZArith List Bool.
From Verif Require Import Model.Base.
Import ListNotations.
Open Scope Z_scope.

(** convertHexToDec (UnicodeIterator.h:32-50). *)
Definition hexval (x : Z) : outcome Z :=
  if (48 <=? x) && (x <=? 57) then Ok (x - 48)
  else if (65 <=? x) && (x <=? 70) then Ok (10 + (x - 65))
  else if (97 <=? x) && (x <=? 102) then Ok (10 + (x - 97))
  else Throw.

(** ---------------------------------------------------------------------- *)
(** UnicodeWrapperIterator over a std::string buffer (UnicodeIterator.h:184-371).

    [read_at buf i] is [*iter] for the iterator at index [i].  Index [size] is the terminating NUL of the
    std::string (the iterators are dereferenced at end(); std::string keeps a NUL there and the formal
    "end() is not dereferenceable" is not counted as a violation); anything beyond is [UB]. *)
Definition read_at (buf : bytes) (i : nat) : outcome Z :=
  match nth_error buf i with
  | Some c => Ok c
  | None => if Nat.eqb i (length buf) then Ok 0 else UB
  end.

Record wit := mkWit {
  w_iter : nat;        (* iter, as an index into the buffer *)
  w_cont : list Z;     (* cont: pending decoded bytes *)
  w_index : nat;       (* index into cont *)
  w_next : Z           (* next: prefetched character *)
}.

(** Constructor for begin (UnicodeIterator.h:197-207). *)
Definition wit_begin (buf : bytes) : outcome wit :=
  do c <- read_at buf 0; Ok (mkWit 1 [] 0 c).

(** getUnicodeHex (UnicodeIterator.h:357-370): four hex digits starting at [i]. *)
Definition getUnicodeHex (buf : bytes) (i : nat) : outcome Z :=
  do x1 <- read_at buf i;          do h1 <- hexval x1;
  do x2 <- read_at buf (i + 1);    do h2 <- hexval x2;
  do x3 <- read_at buf (i + 2);    do h3 <- hexval x3;
  do x4 <- read_at buf (i + 3);    do h4 <- hexval x4;
  let v1 := Z.shiftl 0 4 + h1 in
  let v2 := Z.shiftl v1 4 + h2 in
  let v3 := Z.shiftl v2 4 + h3 in
  Ok (Z.shiftl v3 4 + h4).

(** decodeSurrogatePairs (UnicodeIterator.h:316-356).
    Returns the bytes pushed into cont and the advanced iterator. *)
Definition decodeSurrogatePairs (buf : bytes) (i : nat) (v : Z) : outcome (list Z * nat) :=
  do c1 <- read_at buf i;
  if negb (c1 =? 92) then Throw else
  do c2 <- read_at buf (i + 1);
  if negb (c2 =? 117) then Throw else
  do lo <- getUnicodeHex buf (i + 2);
  let u := Z.shiftl v 16 + lo in
  if negb (Z.land u 0xFC00FC00 =? 0xD800DC00) then Throw else
  let u := Z.lor (Z.lor 0x10000 (Z.shiftr (Z.land u 0x03FF0000) 6)) (Z.land u 0x3FF) in
  Ok ([ Z.lor 240 (Z.land (Z.shiftr u 18) 15);
        Z.lor 128 (Z.land (Z.shiftr u 12) 63);
        Z.lor 128 (Z.land (Z.shiftr u 6) 63);
        Z.lor 128 (Z.land (Z.shiftr u 0) 63) ], (i + 6)%nat).

(** decodeUnicode (UnicodeIterator.h:285-315). *)
Definition decodeUnicode (buf : bytes) (i : nat) : outcome (list Z * nat) :=
  do v <- getUnicodeHex buf i;
  let i := (i + 4)%nat in
  if v <=? 0x7F then Ok ([Z.land v 127], i)
  else if v <=? 0x7FF then
    Ok ([Z.lor 192 (Z.land (Z.shiftr v 6) 31); Z.lor 128 (Z.land (Z.shiftr v 0) 63)], i)
  else if v <=? 0xFFFF then
    if negb (Z.land v 0xFC00 =? 0xD800) then
      Ok ([ Z.lor 224 (Z.land (Z.shiftr v 12) 15);
            Z.lor 128 (Z.land (Z.shiftr v 6) 63);
            Z.lor 128 (Z.land (Z.shiftr v 0) 63) ], i)
    else decodeSurrogatePairs buf i v
  else Ok ([], i).

(** The simple escapes of checkBuffer (UnicodeIterator.h:261-270). *)
Definition simple_escape (e : Z) : option Z :=
  if e =? 34 then Some 34
  else if e =? 92 then Some 92
  else if e =? 47 then Some 47
  else if e =? 98 then Some 8
  else if e =? 102 then Some 12
  else if e =? 110 then Some 10
  else if e =? 114 then Some 13
  else if e =? 116 then Some 9
  else None.

(** checkBuffer (UnicodeIterator.h:245-284). *)
Definition checkBuffer (buf : bytes) (w : wit) : outcome (Z * wit) :=
  let r := w_next w in
  if r <? 32 then Throw
  else if negb (r =? 92) then Ok (r, w)
  else
    do e <- read_at buf (w_iter w);
    let i := S (w_iter w) in
    match simple_escape e with
    | Some x => Ok (x, mkWit i (w_cont w) (w_index w) (w_next w))
    | None =>
        if e =? 117 then
          do (cs, i') <- decodeUnicode buf i;
          match cs with
          | c0 :: _ => Ok (c0, mkWit i' cs (w_index w) (w_next w))
          | [] => UB
          end
        else Throw
    end.

(** operator* (UnicodeIterator.h:236-243). *)
Definition wit_deref (buf : bytes) (w : wit) : outcome (Z * wit) :=
  match w_cont w with
  | [] => checkBuffer buf w
  | cs => match nth_error cs (w_index w) with
          | Some c => Ok (c, w)
          | None => UB
          end
  end.

(** operator++ (UnicodeIterator.h:216-235). *)
Definition wit_incr (buf : bytes) (w : wit) : outcome wit :=
  match w_cont w with
  | [] => do c <- read_at buf (w_iter w); Ok (mkWit (S (w_iter w)) [] (w_index w) c)
  | cs =>
      let idx := S (w_index w) in
      if Nat.eqb idx (length cs) then
        do c <- read_at buf (w_iter w); Ok (mkWit (S (w_iter w)) [] 0 c)
      else Ok (mkWit (w_iter w) cs idx (w_next w))
  end.

(** Assignment through the output iterator std::begin(value) + k. *)
Fixpoint write_at (buf : bytes) (k : nat) (c : Z) : outcome bytes :=
  match buf, k with
  | [], _ => UB
  | _ :: r, O => Ok (c :: r)
  | x :: r, S k' => do r' <- write_at r k' c; Ok (x :: r')
  end.

(** One iteration of std::copy (JsonManualLexer.cpp:201-203): test [first != last], assign, increment.
    [None] when the loop is finished. *)
Definition copy_step (st : bytes * nat * wit) : outcome (option (bytes * nat * wit)) :=
  let '(buf, k, w) := st in
  if Nat.eqb (w_iter w) (S (length buf)) then Ok None
  else
    do (c, w1) <- wit_deref buf w;
    do buf1 <- write_at buf k c;
    do w2 <- wit_incr buf1 w1;
    Ok (Some (buf1, S k, w2)).

Fixpoint copy_loop (fuel : nat) (st : bytes * nat * wit) : outcome (bytes * nat) :=
  match fuel with
  | O => Hang
  | S f =>
      do r <- copy_step st;
      match r with
      | None => let '(buf, k, _) := st in Ok (buf, k)
      | Some st' => copy_loop f st'
      end
  end.

(** The in-place conversion of getStringInto (JsonManualLexer.cpp:199-205). *)
Definition unescape_inplace (raw : bytes) : outcome bytes :=
  do w <- wit_begin raw;
  do (buf, k) <- copy_loop (S (S (length raw))) (raw, O, w);
  Ok (firstn k buf).

(** ---------------------------------------------------------------------- *)
(** escapeString (ThorsSerializerUtil.h:320-403), called from JsonPrinter::addValue and
    BsonPrinter::writeString.  Simplified: the successive write calls (unescaped runs and escapes) are
    concatenated into one text. *)
Definition hex_lower (d : Z) : Z := if d <? 10 then 48 + d else 87 + d.

Definition escape_char (c : Z) : bytes :=
  if c =? 34 then [92; 34]
  else if c =? 92 then [92; 92]
  else if c =? 8 then [92; 98]
  else if c =? 12 then [92; 102]
  else if c =? 10 then [92; 110]
  else if c =? 13 then [92; 114]
  else if c =? 9 then [92; 116]
  else if c <? 32 then [92; 117; 48; 48; hex_lower (c / 16); hex_lower (c mod 16)]
  else [c].

Definition escapeString (s : bytes) : bytes := flat_map escape_char s.

(** ---------------------------------------------------------------------- *)
(** UnicodePushBackIterator::operator= (UnicodeIterator.h:72-181).
    State: output so far (in order), lastWasSlash, unicodeCount, unicodeValue (std::uint32_t). *)
Record pbi := mkPbi { p_out : bytes; p_slash : bool; p_count : Z; p_val : Z }.

Definition pbi_init : pbi := mkPbi [] false 0 0.

Definition u32 (z : Z) : Z := z mod 4294967296.
Definition u8 (z : Z) : Z := z mod 256.

Definition pbi_push (p : pbi) (cs : bytes) (cnt : Z) : pbi :=
  mkPbi (p_out p ++ map u8 cs) (p_slash p) cnt (p_val p).

Definition pbi_assign (p : pbi) (x : Z) : outcome pbi :=
  if negb (p_count p =? 0) then
    if p_count p =? 6 then
      if negb (x =? 92) then Throw else Ok (mkPbi (p_out p) (p_slash p) 5 (p_val p))
    else if p_count p =? 5 then
      if negb (x =? 117) then Throw else Ok (mkPbi (p_out p) (p_slash p) 4 (p_val p))
    else
      do h <- hexval x;
      let v := u32 (u32 (Z.shiftl (p_val p) 4) + h) in
      let cnt := p_count p - 1 in
      let p := mkPbi (p_out p) (p_slash p) cnt v in
      if negb (cnt =? 0) then Ok p
      else if v <=? 0x7F then Ok (pbi_push p [v] 0)
      else if v <=? 0x7FF then
        Ok (pbi_push p [Z.lor 192 (Z.shiftr v 6); Z.lor 128 (Z.land v 63)] 0)
      else if v <=? 0xFFFF then
        if negb (Z.land v 0xFC00 =? 0xD800) then
          Ok (pbi_push p [Z.lor 224 (Z.shiftr v 12); Z.lor 128 (Z.land (Z.shiftr v 6) 63);
                          Z.lor 128 (Z.land v 63)] 0)
        else Ok (mkPbi (p_out p) (p_slash p) 6 v)
      else if negb (Z.land v 0xFC00FC00 =? 0xD800DC00) then Throw
      else
        let v := Z.lor (Z.lor 0x10000 (Z.shiftr (Z.land v 0x03FF0000) 6)) (Z.land v 0x3FF) in
        Ok (mkPbi (p_out p ++ map u8 [Z.lor 240 (Z.shiftr v 18);
                                      Z.lor 128 (Z.land (Z.shiftr v 12) 63);
                                      Z.lor 128 (Z.land (Z.shiftr v 6) 63);
                                      Z.lor 128 (Z.land v 63)])
                  (p_slash p) 0 v)
  else if p_slash p then
    if x =? 117 then Ok (mkPbi (p_out p) false 4 0)
    else match simple_escape x with
         | Some c => Ok (mkPbi (p_out p ++ [c]) false 0 (p_val p))
         | None => Ok (mkPbi (p_out p) false 0 (p_val p))
         end
  else if x =? 92 then Ok (mkPbi (p_out p) true 0 (p_val p))
  else Ok (mkPbi (p_out p ++ [x]) false 0 (p_val p)).

Fixpoint pbi_run (p : pbi) (s : bytes) : outcome pbi :=
  match s with
  | [] => Ok p
  | x :: r => do p' <- pbi_assign p x; pbi_run p' r
  end.
