(** The YAML document of a C++ value, what cannot be written, and the indentation of a text.  Nothing here runs the
    printer. *)
From Coq Require Import ZArith String List Bool.
From Verif Require Import Model.Base Model.Number Model.ParserInterface Model.Types Model.Yaml Spec.JsonString Spec.Json Spec.Typed Spec.Import Spec.Denotes.
Import ListNotations.
Open Scope Z_scope.

(** ** The document *)
(** Everything is text: integers in decimal, true and false, null for a null pointer. *)
Definition yaml_number (i : ity) (z : Z) (a : list Z) : Prop := a = int_dec z.
Definition yaml_truth (b : bool) (a : list Z) : Prop := a = if b then bs "true" else bs "false".
Definition yaml_same (s a : list Z) : Prop := a = s.
Definition yaml_nothing (a : list Z) : Prop := a = bs "null".
Definition yaml_sense_with (number : ity -> Z -> list Z -> Prop) (marker : list Z) : ty -> sense (list Z) :=
  sense_of number yaml_truth yaml_same yaml_same yaml_nothing yaml_same marker.
Definition yaml_sense : list Z -> ty -> sense (list Z) := yaml_sense_with yaml_number.
(** [yaml_stands marker t v j]: [j] is the YAML document of the value [v] of type [t]. *)
Definition yaml_stands (marker : list Z) (t : ty) (v : val) (j : tree (list Z)) : Prop := d_val (yaml_sense marker t) v j.

(** Text that is the UTF-8 encoding of some numbers; also of those that are not characters. *)
Definition utf8_text (s : list Z) : Prop := exists cps, Forall (fun cp => 0 <= cp < 2 ^ 21) cps /\ s = flat_map utf8 cps.
(** All text in a document is such text. *)
Fixpoint all_text (P : list Z -> Prop) (j : tree (list Z)) : Prop :=
  match j with
  | Scal s => P s
  | Arr l => all_of (map (all_text P) l)
  | Obj l => all_of (map (fun e => P (fst e) /\ all_text P (snd e)) l)
  end.

(** ** The first thing in a value that cannot be written, in the order of the document *)
(** Where it is: it is the whole document, an element of a list, a key, or the value of a key. *)
Inductive spot := Whole | Element | Key | Value.
Definition in_list (s : option spot) : option spot := match s with Some Whole => Some Element | _ => s end.
Definition in_map (s : option spot) : option spot := match s with Some Whole => Some Value | _ => s end.
Fixpoint first_of (l : list (option spot)) : option spot :=
  match l with [] => None | None :: r => first_of r | s :: _ => s end.

Section Faults.
  (** [bad s]: the text cannot be written; [of_num i z]: what is wrong with the text of a [TInt i]. *)
  Variables (bad : list Z -> bool) (of_num : ity -> Z -> option spot) (marker : list Z).
  Definition of_text (s : list Z) : option spot := if bad s then Some Whole else None.
  Definition of_written (s : option (list Z)) : option spot := match s with Some s => of_text s | None => Some Whole end.
  Definition of_entry (k : list Z) (s : option spot) : option spot := if bad k then Some Key else in_map s.
  Record faults := mkFaults { in_val : val -> option spot; in_mem : val -> option spot }.
  Definition no_mem (f : val -> option spot) : faults := mkFaults f (fun _ => None).

  Fixpoint in_tuple (fs : list faults) (vs : list val) : list (option spot) :=
    match fs, vs with
    | f :: fs', v :: vs' => in_list (in_val f v) :: in_tuple fs' vs'
    | _, _ => []
    end.
  Fixpoint in_own (ns : list (list Z)) (ts : list ty) (fs : list faults) (vs : list val) : list (option spot) :=
    match ns, ts, fs, vs with
    | n :: ns', t :: ts', f :: fs', v :: vs' =>
        match t, v with
        | TOpt _, VOpt None => in_own ns' ts' fs' vs'
        | _, _ => of_entry n (in_val f v) :: in_own ns' ts' fs' vs'
        end
    | _, _, _, _ => []
    end.
  Fixpoint in_parents (fs : list faults) (vs : list val) : list (option spot) :=
    match fs, vs with
    | f :: fs', v :: vs' => in_mem f v :: in_parents fs' vs'
    | _, _ => []
    end.
  Definition with_tag (c : list Z) (s : option spot) : option spot := first_of [of_entry marker (of_text c); s].

  Fixpoint faults_of (t : ty) : faults :=
    match t with
    | TInt i => no_mem (fun v => match v with VInt z => of_num i z | _ => None end)
    | TBool => no_mem (fun _ => None)
    | TStr => no_mem (fun v => match v with VStr s => of_text s | _ => None end)
    | TEnum l =>
        no_mem (fun v => match v with
                         | VInt z => match enum_name l z with Some n => of_text n | None => Some Whole end
                         | _ => None
                         end)
    | TSeq _ t' | TArr _ t' => let f := faults_of t' in
        no_mem (fun v => match v with VList l => first_of (map (fun x => in_list (in_val f x)) l) | _ => None end)
    | TTup ts => let fs := map faults_of ts in
        no_mem (fun v => match v with VList l => first_of (in_tuple fs l) | _ => None end)
    | TMap _ t' => let f := faults_of t' in
        no_mem (fun v => match v with VMap l => first_of (map (fun kv => of_entry (fst kv) (in_val f (snd kv))) l) | _ => None end)
    | TPtr t' => let f := faults_of t' in
        no_mem (fun v => match v with VPtr (Some x) => in_val f x | _ => None end)
    | TOpt t' => let f := faults_of t' in
        no_mem (fun v => match v with VOpt (Some x) => in_val f x | VOpt None => Some Whole | _ => None end)
    | TStruct i ms ps =>
        let fm := map faults_of ms in
        let fp := map faults_of ps in
        let mem := fun v => match v with
                            | VStruct own par => first_of (in_own (map (nameOverride i) (si_names i)) ms fm own ++ in_parents fp par)
                            | _ => None
                            end in
        mkFaults (fun v => if si_mark i then with_tag (si_poly i) (mem v) else mem v) mem
    | TPoly cs _ => let fs := map faults_of cs in
        no_mem (fun v => match v with
                         | VPtr (Some (VVar k x)) =>
                             match nth_error cs k, nth_error fs k with Some c, Some f => with_tag (class_name c) (in_mem f x) | _, _ => None end
                         | _ => None
                         end)
    | TVariant cs => let fs := map faults_of cs in
        no_mem (fun v => match v with
                         | VVar k x => match nth_error cs k, nth_error fs k with Some c, Some f => with_tag (class_name c) (in_mem f x) | _, _ => None end
                         | _ => None
                         end)
    end.
  Definition first_fault_with (t : ty) (v : val) : option spot := in_val (faults_of t) v.
End Faults.
(** Integers can always be written. *)
Definition first_fault (bad : list Z -> bool) : list Z -> ty -> val -> option spot := first_fault_with bad (fun _ _ => None).

(** ** Indented text *)
(** The lines of a text: what is between new lines; a text that ends with a new line ends with an empty line. *)
Fixpoint lines (s : list Z) : list (list Z) :=
  match s with
  | [] => [[]]
  | c :: r => if c =? 10 then [] :: lines r else match lines r with l :: ls => (c :: l) :: ls | [] => [[c]] end
  end.
Fixpoint unlines (l : list (list Z)) : list Z :=
  match l with [] => [] | [x] => x | x :: r => x ++ 10 :: unlines r end.
(** Every line of the text moved by [n] blanks. *)
Definition indented (n : Z) (s : list Z) : list Z := unlines (map (fun l => repeat 32 (Z.to_nat n) ++ l) (lines s)).

(** ** Integers: white space, a sign, digits *)
Inductive yaml_integer : list Z -> Z -> Prop :=
| yi_plain : forall b ds, blank b -> digits ds -> yaml_integer (b ++ ds) (digits_value 0 ds)
| yi_plus : forall b ds, blank b -> digits ds -> yaml_integer (b ++ 43 :: ds) (digits_value 0 ds)
| yi_minus : forall b ds, blank b -> digits ds -> yaml_integer (b ++ 45 :: ds) (- digits_value 0 ds).
(** What 64 bits hold of an integer. *)
Definition nearest64 (signed : bool) (w : Z) : Z :=
  if signed then Z.max (- 2 ^ 63) (Z.min (2 ^ 63 - 1) w) else if 2 ^ 64 - 1 <? Z.abs w then 2 ^ 64 - 1 else w mod 2 ^ 64.

(** ** Reading *)
(** Texts that stand for null, however they are quoted. *)
Definition yaml_null_text (s : list Z) : bool := beq s (bs "null") || beq s (bs "~").
(** The values that are read back from their documents with strictness [m]. *)
Definition yaml_reads_back (m : strictness) (marker : list Z) (t : ty) (v : val) : Prop :=
  wf t = true /\ valid t v /\ distinct_names marker t /\ no_null_like yaml_null_text t v /\
  (m <> Weak -> untagged true t = true) /\ (m = Exact -> complete t v /\ no_overrides t).
(** What libyaml asks for: the sizes of the pieces, in order.  [asks_again ns n]: of a text of [n] bytes everything was
    delivered, and then libyaml asks for more. *)
Definition total (ns : list nat) : nat := fold_right Nat.add O ns.
Definition asks_again (ns : list nat) (n : nat) : Prop := exists a x b, ns = a ++ x :: b /\ (0 < x)%nat /\ (n <= total a)%nat.
