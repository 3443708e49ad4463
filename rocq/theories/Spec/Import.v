(** The words used in the statements about JSON imports. *)
From Coq Require Import ZArith List Bool Permutation.
From Verif Require Import Model.Base Model.Source Model.Number Model.ParserInterface Model.Types Model.Importer
  Spec.JsonString Spec.Json Spec.Typed.
Import ListNotations.

(** The key or string written [raw] is the name [n].  With convertBackSlash the escapes are decoded; surrogate pairs are
    limited to the planes that the library decodes (see C04). *)
Definition names (conv : bool) (raw n : bytes) : Prop := if conv then json_string_when odd_plane raw n else raw = n.
Definition str_is (conv : bool) (a : jscal) (c : bytes) : Prop :=
  match a with SStr raw => names conv raw c | _ => False end.
Definition null_is (a : jscal) : bool := match a with SNull => true | _ => false end.

(** Parts of a JSON document under a configuration. *)
Definition jpart (cfg : pconfig) : ty -> jv -> ty -> jv -> Prop :=
  part (names (pc_conv cfg)) (str_is (pc_conv cfg)) null_is (pc_marker cfg).
Definition jinside (cfg : pconfig) (R : ty -> jv -> jv -> Prop) : ty -> jv -> jv -> Prop :=
  inside (names (pc_conv cfg)) (str_is (pc_conv cfg)) null_is (pc_marker cfg) R.
Definition junread (cfg : pconfig) : ty -> jv -> jv -> Prop :=
  unread (names (pc_conv cfg)) (str_is (pc_conv cfg)) null_is (pc_marker cfg).

(** All keys and strings of a tree. *)
Definition strings (P : bytes -> Prop) (j : jv) : Prop :=
  tree_all P (fun a => match a with SStr raw => P raw | _ => True end) j.
(** All keys and strings can be decoded. *)
Definition readable (conv : bool) (j : jv) : Prop := strings (fun raw => exists n, names conv raw n) j.
(** The strings that are skipped exactly: the last character is not a backslash; on a string source there is no byte 255. *)
Definition skip_safe (k : skind) (raw : bytes) : Prop := (forall r, raw <> r ++ [92%Z]) /\ (k = StrIn -> ~ In 255%Z raw).
(** Everything that is skipped when the document [j] is read as a [t] is skipped exactly. *)
Definition exact_skips (cfg : pconfig) (k : skind) (t : ty) (j : jv) : Prop :=
  pc_strict cfg = Weak -> readable (pc_conv cfg) j /\ forall jk, junread cfg t j jk -> strings (skip_safe k) jk.

(** ** Results of imports *)
(** The import succeeds with [v'] and leaves only white space. *)
Definition accepts (cfg : pconfig) (k : skind) (t : ty) (v : val) (text : bytes) (v' : val) : Prop :=
  exists rest, ws rest /\ imports cfg k t v text v' rest.
Definition same_result (cfg : pconfig) (k : skind) (t : ty) (v : val) (text1 text2 : bytes) : Prop :=
  (forall v', accepts cfg k t v text1 v' <-> accepts cfg k t v text2 v') /\
  (rejects cfg k t v text1 <-> rejects cfg k t v text2) /\
  (undefined cfg k t v text1 <-> undefined cfg k t v text2).
(** The import ends without a value. *)
Definition refuses (cfg : pconfig) (k : skind) (t : ty) (v : val) (text : bytes) : Prop :=
  rejects cfg k t v text \/ undefined cfg k t v text.
(** The import ends. *)
Definition ends (cfg : pconfig) (k : skind) (t : ty) (v : val) (text : bytes) : Prop :=
  (exists v', accepts cfg k t v text v') \/ refuses cfg k t v text.

(** ** The value of an integer literal *)
Open Scope Z_scope.
Fixpoint digits_value (acc : Z) (ds : bytes) : Z :=
  match ds with [] => acc | d :: r => digits_value (10 * acc + (d - 48)) r end.
Inductive int_literal : bytes -> Z -> Prop :=
| il_plain : forall ds, int_part ds -> int_literal ds (digits_value 0 ds)
| il_minus : forall ds, int_part ds -> int_literal (45 :: ds) (- digits_value 0 ds).
(** The value fits the type. *)
Definition fits (i : ity) (z : Z) : Prop :=
  if i_signed i then - 2 ^ (i_bits i - 1) <= z < 2 ^ (i_bits i - 1) else 0 <= z < 2 ^ i_bits i.

(** No position of the document makes the reader leave defined behaviour: arrays are not longer than their target, integers
    fit on a string source, class names at a pointer are of derived classes or of no class at all. *)
Definition sound_here (cfg : pconfig) (k : skind) (t : ty) (j : jv) : Prop :=
  match t, j with
  | TArr n _, Arr l => (length l <= n)%nat
  | TTup ts, Arr l => (length l <= length ts)%nat
  | TInt i, Scal (SNum t) => k = StrIn -> forall z, int_literal t z -> fits i z
  | TPoly cs others, Obj ((key, Scal a) :: _) =>
      forall c, names (pc_conv cfg) key (pc_marker cfg) -> str_is (pc_conv cfg) a c -> find_class cs c = None -> ~ In c others
  | _, _ => True
  end.
Definition sound (cfg : pconfig) (k : skind) (t : ty) (j : jv) : Prop :=
  readable (pc_conv cfg) j /\ forall t' j', jpart cfg t j t' j' -> sound_here cfg k t' j'.

(** ** Changes of a document *)
(** A member that the class does not have is left out. *)
Inductive leaves_out (cfg : pconfig) (k : skind) : ty -> jv -> jv -> Prop :=
| lo_intro : forall t a key n jk b, is_class t = true -> names (pc_conv cfg) key n -> member_type t n = None ->
    strings (skip_safe k) jk -> leaves_out cfg k t (Obj (a ++ (key, jk) :: b)) (Obj (a ++ b)).
(** The members of a class come in another order; no two have the same name. *)
Inductive reorders (cfg : pconfig) : ty -> jv -> jv -> Prop :=
| ro_intro : forall t l l', is_class t = true -> Permutation l l' ->
    (forall a key1 j1 b key2 j2 c n1 n2, l = a ++ (key1, j1) :: b ++ (key2, j2) :: c ->
       names (pc_conv cfg) key1 n1 -> names (pc_conv cfg) key2 n2 -> n1 <> n2) ->
    (forall key j, In (key, j) l -> exists n, names (pc_conv cfg) key n) ->
    reorders cfg t (Obj l) (Obj l').
(** All integers of the document fit where they are read, and no minus sign is read into an unsigned integer. *)
Definition plain_ints (cfg : pconfig) (t : ty) (j : jv) : Prop :=
  forall i txt z, jpart cfg t j (TInt i) (Scal (SNum txt)) -> int_literal txt z ->
    fits i z /\ (i_signed i = false -> forall r, txt <> 45 :: r).
(** ** Import of a part on its own *)
(** Every text of [j] is imported into a variable holding [v] with the result [v']. *)
Definition reads_as (cfg : pconfig) (k : skind) (t : ty) (v : val) (j : jv) (v' : val) : Prop :=
  forall text, document j text -> accepts cfg k t v text v'.
(** No member of the object is called [n]. *)
Definition lacks (cfg : pconfig) (l : list (bytes * jv)) (n : bytes) : Prop :=
  forall key j, In (key, j) l -> ~ names (pc_conv cfg) key n.
(** The same configuration with another strictness. *)
Definition with_mode (cfg : pconfig) (m : strictness) : pconfig :=
  mkPc m (pc_marker cfg) (pc_catch cfg) (pc_noTrailing cfg) (pc_conv cfg).
