(** JSON strings and UTF-8, written from RFC 8259 section 7 and RFC 3629 alone. *)
From Coq Require Import ZArith List.
Import ListNotations.
Open Scope Z_scope.

(** UTF-8 encoding of a code point (RFC 3629 section 3). *)
Definition utf8 (cp : Z) : list Z :=
  if cp <? 0x80 then [cp]
  else if cp <? 0x800 then [192 + cp / 64; 128 + cp mod 64]
  else if cp <? 0x10000 then [224 + cp / 4096; 128 + (cp / 64) mod 64; 128 + cp mod 64]
  else [240 + cp / 262144; 128 + (cp / 4096) mod 64; 128 + (cp / 64) mod 64; 128 + cp mod 64].

(** A hexadecimal digit and its value. *)
Inductive hex_digit : Z -> Z -> Prop :=
| hd_dec   : forall d, 0 <= d <= 9 -> hex_digit (48 + d) d
| hd_upper : forall d, 10 <= d <= 15 -> hex_digit (65 + (d - 10)) d
| hd_lower : forall d, 10 <= d <= 15 -> hex_digit (97 + (d - 10)) d.

(** Four hexadecimal digits and their value. *)
Inductive hex4 : list Z -> Z -> Prop :=
| hex4_intro : forall a b c d x y z w,
    hex_digit a x -> hex_digit b y -> hex_digit c z -> hex_digit d w ->
    hex4 [a; b; c; d] (4096 * x + 256 * y + 16 * z + w).

Definition high_surrogate (n : Z) : Prop := 0xD800 <= n <= 0xDBFF.
Definition low_surrogate (n : Z) : Prop := 0xDC00 <= n <= 0xDFFF.

(** The code point of a surrogate pair (RFC 2781 section 2.2). *)
Definition pair_code (hi lo : Z) : Z := 0x10000 + (hi - 0xD800) * 0x400 + (lo - 0xDC00).

(** The two character escapes. *)
Inductive short_escape : Z -> Z -> Prop :=
| se_quote : short_escape 34 34
| se_bslash : short_escape 92 92
| se_slash : short_escape 47 47
| se_b : short_escape 98 8
| se_f : short_escape 102 12
| se_n : short_escape 110 10
| se_r : short_escape 114 13
| se_t : short_escape 116 9.

(** [json_string_when P raw v]: the text [raw] between the quotes of a JSON string is legal, all code points
    written as surrogate pairs in it satisfy [P], and it denotes the bytes [v]. *)
Inductive json_string_when (P : Z -> Prop) : list Z -> list Z -> Prop :=
| js_nil : json_string_when P [] []
| js_char : forall c r v,
    32 <= c < 256 -> c <> 34 -> c <> 92 ->
    json_string_when P r v -> json_string_when P (c :: r) (c :: v)
| js_short : forall e x r v,
    short_escape e x -> json_string_when P r v -> json_string_when P (92 :: e :: r) (x :: v)
| js_unicode : forall h n r v,
    hex4 h n -> ~ high_surrogate n -> ~ low_surrogate n ->
    json_string_when P r v -> json_string_when P (92 :: 117 :: h ++ r) (utf8 n ++ v)
| js_pair : forall h1 n1 h2 n2 r v,
    hex4 h1 n1 -> high_surrogate n1 -> hex4 h2 n2 -> low_surrogate n2 -> P (pair_code n1 n2) ->
    json_string_when P r v ->
    json_string_when P (92 :: 117 :: h1 ++ 92 :: 117 :: h2 ++ r) (utf8 (pair_code n1 n2) ++ v).

(** The JSON strings of RFC 8259. *)
Definition json_string : list Z -> list Z -> Prop := json_string_when (fun _ => True).

(** Legal string contents when an escaped low surrogate may also stand alone.  No value is attached. *)
Inductive json_string_lone_low : list Z -> Prop :=
| jl_nil : json_string_lone_low []
| jl_char : forall c r,
    32 <= c < 256 -> c <> 34 -> c <> 92 -> json_string_lone_low r -> json_string_lone_low (c :: r)
| jl_short : forall e x r,
    short_escape e x -> json_string_lone_low r -> json_string_lone_low (92 :: e :: r)
| jl_unicode : forall h n r,
    hex4 h n -> ~ high_surrogate n -> json_string_lone_low r -> json_string_lone_low (92 :: 117 :: h ++ r)
| jl_pair : forall h1 n1 h2 n2 r,
    hex4 h1 n1 -> high_surrogate n1 -> hex4 h2 n2 -> low_surrogate n2 ->
    json_string_lone_low r -> json_string_lone_low (92 :: 117 :: h1 ++ 92 :: 117 :: h2 ++ r).

(** The closing quote of a string: [closed_by raw rest text] holds when [text] is [raw], a quote, and [rest], and
    this quote is the first one that is not escaped. *)
Inductive closed_by : list Z -> list Z -> list Z -> Prop :=
| cb_end : forall rest, closed_by [] rest (34 :: rest)
| cb_char : forall c raw rest text, c <> 34 -> c <> 92 -> closed_by raw rest text ->
    closed_by (c :: raw) rest (c :: text)
| cb_escape : forall c raw rest text, closed_by raw rest text ->
    closed_by (92 :: c :: raw) rest (92 :: c :: text).

(** Code points of the planes with an odd number (U+1xxxx, U+3xxxx, ..., U+Fxxxx). *)
Definition odd_plane (cp : Z) : Prop := Z.odd (cp / 65536) = true.

(** Text behind an opening quote in which no closing quote follows. *)
Inductive unclosed : list Z -> Prop :=
| uc_end : unclosed []
| uc_slash : unclosed [92]
| uc_char : forall c r, c <> 34 -> c <> 92 -> unclosed r -> unclosed (c :: r)
| uc_escape : forall c r, unclosed r -> unclosed (92 :: c :: r).
