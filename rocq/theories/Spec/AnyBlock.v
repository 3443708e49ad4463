(** Which documents an AnyBlock can hold as they are. *)
From Coq Require Import ZArith List.
From Verif Require Import Model.Source Model.Importer Spec.Json.
Import ListNotations.
Open Scope Z_scope.

(** A string that does not end in a backslash; from a std::string also without bytes from 128 on. *)
Definition copied_string (k : skind) (raw : list Z) : Prop := last raw 0 <> 92 /\ (k = StrIn -> Forall (fun c => c < 128) raw).
(** A key without escapes; any key when they are not converted. *)
Definition copied_key (cfg : pconfig) (raw : list Z) : Prop := pc_conv cfg = true -> ~ In 92 raw.
Fixpoint copied (cfg : pconfig) (k : skind) (j : jv) : Prop :=
  match j with
  | Scal (SStr raw) => copied_string k raw
  | Scal _ => True
  | Arr l => fold_right (fun x P => copied cfg k x /\ P) True l
  | Obj l => fold_right (fun kv P => copied_key cfg (fst kv) /\ copied cfg k (snd kv) /\ P) True l
  end.
(** A number in a stream has something behind it. *)
Definition number_followed (k : skind) (j : jv) (rest : list Z) : Prop := match j with Scal (SNum _) => k = Strm -> rest <> [] | _ => True end.
