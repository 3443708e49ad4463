(** std::format of TA::Ser<T> (Format.h). *)
From Coq Require Import ZArith String List Bool.
From Verif Require Import Model.Base Model.Number Model.Printer Model.JsonPrinter Model.Types Model.Serializer Model.Exporter Model.BsonDoc Model.Yaml Model.YamlPrinter.
Import ListNotations.
Open Scope Z_scope.

(** The members of the formatter (Format.h:31-35); the sizes are std::size_t. *)
Inductive fform := FJson | FBson | FYaml.
Record fspec := mkFs { fs_form : fform; fs_type : otype; fs_indent : Z; fs_block : Z }.
Definition fs_default : fspec := mkFs FJson OStream 0 0.

(** [*loop]: the characters from the current one to the end of the format string.  Reading at the end is undefined. *)
Definition fs_peek (s : bytes) : outcome Z := match s with c :: _ => Ok c | [] => UB end.
(** The loops that read a number (Format.h:85-87, 92-94); std::size_t wraps. *)
Fixpoint fs_number (acc : Z) (s : bytes) : outcome (Z * bytes) :=
  match s with
  | [] => UB
  | c :: r => if is_digit c then fs_number ((acc * 10 + (c - 48)) mod 2 ^ 64) r else Ok (acc, s)
  end.
(** parse (Format.h:41-97). *)
Definition fs_parse (f : fspec) (s : bytes) : outcome (fspec * bytes) :=
  do c <- fs_peek s;
  let '(f, s) :=
    if c =? 74 then (mkFs FJson (fs_type f) (fs_indent f) (fs_block f), tl s)
    else if c =? 66 then (mkFs FBson (fs_type f) (fs_indent f) (fs_block f), tl s)
    else if c =? 89 then (mkFs FYaml (fs_type f) (fs_indent f) (fs_block f), tl s)
    else (f, s) in
  do c <- fs_peek s;
  let '(f, s) :=
    if c =? 45 then (mkFs (fs_form f) OStream (fs_indent f) (fs_block f), tl s)
    else if c =? 42 then (mkFs (fs_form f) OConfig (fs_indent f) (fs_block f), tl s)
    else (f, s) in
  do (n, s) <- fs_number (fs_indent f) s;
  let f := mkFs (fs_form f) (fs_type f) n (fs_block f) in
  do c <- fs_peek s;
  if c =? 46 then
    do (n, s) <- fs_number (fs_block f) (tl s);
    Ok (mkFs (fs_form f) (fs_type f) (fs_indent f) n, s)
  else Ok (f, s).

(** std::format: parse is called with a fresh formatter and the text behind the colon (or at the closing brace, if there is no
    colon); what it returns must be the position of the closing brace, otherwise std::format_error. *)
Definition fs_spec (s : bytes) : outcome (fspec * bytes) :=
  do (f, s) <- fs_parse fs_default s;
  match s with c :: r => if c =? 125 then Ok (f, r) else Throw | [] => Throw end.

(** The PrinterConfig of format (Format.h:102): the sizes are converted to int (PrinterConfig.h:24).  Note: this is a
    narrowing conversion in braces; compilers that follow the standard here do not accept it. *)
Definition fs_config (f : fspec) : fconfig :=
  mkPf (fs_type f) (pf_marker pf_default) true (i_wrap IInt (fs_indent f)) (i_wrap IInt (fs_block f)) false.

(** format (Format.h:99-114): the exception of an export does not leave it, because the configuration catches it; what was
    written up to then is the result.  That text is not modelled: [FCut].  [pieces], [o]: as for yaml_export. *)
Inductive formatted := FText (out : bytes) | FCut | FRaised | FTerminated | FUB.
Definition fs_format (pieces : list yev -> list bytes) (o : outside) (f : fspec) (t : ty) (v : val) : formatted :=
  let c := fs_config f in
  match fs_form f with
  | FJson =>
      match json_export c ToStream t v with
      | Exported out => FText out
      | ExportFailed raised => if raised then FRaised else FCut
      | _ => FUB
      end
  | FBson =>
      match bson_export c ToStream false None t v with
      | BExported out _ => FText out
      | BExportFailed raised => if raised then FRaised else FCut
      | _ => FUB
      end
  | FYaml =>
      match yaml_export pieces c o ToStream t v with
      | YExported out => FText out
      | YFailed raised => if raised then FRaised else FCut
      | YTerminated => FTerminated
      | YUB => FUB
      end
  end.
