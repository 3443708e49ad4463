(** Classes with a filter (ThorsAnvil_MakeFilter, Traits.h:620-640).  The object holds a map from member names to bool, which
    replaces the default Filter (Traits.h:966-978). *)
From Coq Require Import ZArith List Bool.
From Verif Require Import Model.Base Model.Number Model.Printer Model.JsonPrinter Model.Types Model.Serializer Model.Exporter Model.BsonPrinter Model.BsonDoc.
Import ListNotations.
Open Scope Z_scope.

(** Filter<T>::filter (Traits.h:633-637): [l] is the content of the map, the name is that of the member in C++. *)
Fixpoint filter_says (l : list (bytes * bool)) (n : bytes) : bool :=
  match l with
  | [] => true
  | (m, b) :: r => if beq m n then b else filter_says r n
  end.

Section Filtered.
  Context {St : Type} (ops : printer_ops St) (marker : bytes) (l : list (bytes * bool)).
  (** SerializeMemberContainer, SerializeMemberValue::init (Serialize.tpp:1217-1262), as [put_members] of Model/Serializer.v. *)
  Fixpoint put_filtered (i : sinfo) (ns : list bytes) (ss : list (sfun St)) (vs : list val) : writer St :=
    match ns, ss, vs with
    | [], [], [] => w_nothing
    | n :: ns', f :: ss', v :: vs' =>
        w_then (if filter_says l n then w_then (pr_key ops (nameOverride i n)) (sf_print f v) else w_nothing) (put_filtered i ns' ss' vs')
    | _, _, _ => w_fail UB
    end.
  (** addSizeEachMember (Traits.h:1027-1059), as [size_members] of Model/Serializer.v. *)
  Fixpoint size_filtered (i : sinfo) (ns : list bytes) (ss : list (sfun St)) (vs : list val) (s : St) : outcome (Z * Z) :=
    match ns, ss, vs with
    | [], [], [] => Ok (0, 0)
    | n :: ns', f :: ss', v :: vs' =>
        do (sz, cnt) <- (if filter_says l n then do a <- sf_size f false v s; Ok (a + pr_szMember ops (nameOverride i n) s, 1) else Ok (0, 0));
        do (sz', cnt') <- size_filtered i ns' ss' vs' s;
        Ok (sz + sz', cnt + cnt')
    | _, _, _ => UB
    end.
  (** getPrintSizeTotal (Traits.h:1060-1070), as [total_struct] of Model/Serializer.v. *)
  Definition total_filtered (i : sinfo) (sm sp : list (sfun St)) (v : val) (acc : Z * Z) (s : St) : outcome (Z * (Z * Z)) :=
    match v with
    | VStruct own par =>
        do (sz, cnt) <- size_filtered i (si_names i) sm own (pr_push ops true s);
        let acc := (fst acc + cnt, snd acc + sz) in
        match sp with
        | [] => match par with [] => Ok (snd acc + pr_szMap ops (fst acc) s, acc) | _ => UB end
        | _ => total_parents sp par 0 acc s
        end
    | _ => UB
    end.
  (** The class with the filter; its parents have none.  As the case [TStruct] of [ser] in Model/Serializer.v. *)
  Definition ser_filtered (i : sinfo) (ms ps : list ty) : sfun St :=
    let sm := map (ser ops marker) ms in
    let sp := map (ser ops marker) ps in
    let members := fun v => match v with
                            | VStruct own par => w_then (put_filtered i (si_names i) sm own) (put_parents sp par)
                            | _ => w_fail UB
                            end in
    let total := total_filtered i sm sp in
    let size := size_struct ops marker i total in
    mkS (fun v => map_block ops (size false v) (w_then (if si_mark i then put_marker ops marker i else w_nothing) (members v)))
        (fun v => map_block ops (size true v) (w_then (put_marker ops marker i) (members v)))
        members size total.
End Filtered.

(** [out << jsonExporter(object, config)], as [json_export] of Model/Exporter.v. *)
Definition filtered_pass (c : fconfig) (l : list (bytes * bool)) (i : sinfo) (ms ps : list ty) (v : val) : outcome (list chunk) :=
  do (out, _) <- sf_print (ser_filtered (json_printer c) (pf_marker c) l i ms ps) v js_init; Ok out.
Definition filtered_json (c : fconfig) (k : okind) (l : list (bytes * bool)) (i : sinfo) (ms ps : list ty) (v : val) : export_result :=
  export_end c
    (match k with
     | ToStream => do out <- filtered_pass c l i ms ps v; Ok (chunks_text out)
     | ToString => do out1 <- filtered_pass c l i ms ps v; do out2 <- filtered_pass c l i ms ps v; copy_chunks (preflight (negb (pf_exact c)) out1) out2
     end).
(** [stream << bsonExporter(object, config, ids)], as [bson_export] of Model/BsonDoc.v.  Simplified: streams only. *)
Definition filtered_bson (c : fconfig) (ids : option (nat -> bytes)) (l : list (bytes * bool)) (i : sinfo) (ms ps : list ty) (v : val) : bson_result :=
  match sf_print (ser_filtered (bson_printer false ids) (pf_marker c) l i ms ps) v bp_init with
  | Ok (out, s) => BExported (chunks_text out) (bp_ids s)
  | Throw => BExportFailed (negb (pf_catch c))
  | _ => BExportUB
  end.
