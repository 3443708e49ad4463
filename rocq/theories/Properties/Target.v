(** C52, C67: what a failed import leaves in the variable.  [kdeser] delivers what the reader delivers
    ([kdeser_agrees], [json_leaves_agrees]); [json_leaves] is the import of a JSON source.  Results are triples: what is left,
    whether an object gave a key twice, how the import ended. *)
From Coq Require Import ZArith String List Bool Lia ZifyBool.
From Verif Require Import Model.Base Model.Source Model.Number Model.ParserInterface Model.JsonParser Model.Types Model.Deserializer Model.Importer Model.Target
  Spec.Target Proofs.Tac Proofs.JsonCheck Proofs.TargetP Properties.Members Properties.Imports Properties.Exports.
Import ListNotations.
Open Scope Z_scope.

(** ** C52.  Full claim: raw owning pointers are null or point to a live object after every import.  Proved for every format
    ([ops]), every type, document and end of the import: if they were all null before, and no object gives a key twice. *)
Theorem C52_first_import_partial : forall {St} (ops : parser_ops St) F m marker t x p x' how, all_null x = true ->
  k_parse (kdeser ops F m marker true t) x p = (x', false, how) -> no_dangling x' = true.
Proof.
  intros St ops F m marker t x p x' how N E. assert (H := proj1 (all_safe ops F m marker true t) x p N). unfold leaves in H. rewrite E in H. now apply H.
Qed.
Print Assumptions C52_first_import_partial.
Theorem C52_first_json_import_partial : forall fuel cfg t x s x' how, all_null x = true -> json_leaves true fuel cfg t x s = (x', false, how) -> no_dangling x' = true.
Proof.
  intros fuel cfg t x s x' how N E. set (r := json_leaves true fuel cfg t x s) in *.
  assert (H : leaves true (fun x => no_dangling x = true) r); [|unfold leaves in H; rewrite E in H; now apply H].
  unfold r, json_leaves. clear E r. assert (S0 := null_no_dangling x N). apply leaves_on; [exact S0|]. intros [tk p]. destruct tk; try (apply leaves_end; exact S0).
  apply (leaves_then true _ (fun x => no_dangling x = true)); [now apply all_safe|auto|]. intros y p1 Hy. apply leaves_on; [exact Hy|]. intro s1. apply leaves_on; [exact Hy|].
  intros [tk p2]. destruct tk; now apply leaves_end.
Qed.
Print Assumptions C52_first_json_import_partial.
(** A std::unique_ptr owns a live object or is null after every import, whatever it held. *)
Theorem C52_unique_ptr : forall {St} (ops : parser_ops St) F m marker t x p, no_dangling x = true ->
  no_dangling (fst (fst (k_parse (kdeser ops F m marker false t) x p))) = true.
Proof. intros St ops F m marker t x p N. refine (proj1 (all_safe ops F m marker false t) x p N _). discriminate. Qed.
Print Assumptions C52_unique_ptr.
(** Otherwise the claim is false.  A pointer that owns an object of a polymorphic class: any value that is not an object of a
    known class.  A pointer that was null: the key given twice.  [leaves_failed]: with any
    sufficient fuel. *)
Definition leaves_failed (raw : bool) (t : ty) (x : target) (text : bytes) (x' : target) : Prop :=
  exists N, forall fuel, (N <= fuel)%nat -> exists again, json_leaves raw fuel pc_default t x (src_init StrIn text) = (x', again, Throw).
Definition ty_owner : ty := TStruct (mkSinfo [bs "p"] [] [] false false false) [TPoly [ty_a] []] [].
Theorem C52_owned_refuted : exists t x text, no_dangling x = true /\ leaves_failed true t x text XDangling.
Proof.
  exists (TPoly [ty_a] []), (XLive (XVar 0 (XStruct [XInt 1] []))), (bs "5"). split; [reflexivity|]. fuels 9%nat. eexists. vm_compute. reflexivity.
Qed.
Print Assumptions C52_owned_refuted.
Theorem C52_twice_refuted : exists text, all_null (up (default ty_owner)) = true /\ leaves_failed true ty_owner (up (default ty_owner)) text (XStruct [XDangling] []).
Proof.
  exists (bs "{""p"":{""__type"":""A"",""x"":1},""p"":5}"). split; [reflexivity|]. fuels 40%nat. eexists. vm_compute. reflexivity.
Qed.
Print Assumptions C52_twice_refuted.
Example C52_example :
  let '(x, again, how) := json_leaves true 60 pc_default ty_owner (up (default ty_owner)) (src_init StrIn (bs "{""p"":{""__type"":""A"",""x"":tru")) in
    (again = false /\ how = Throw) /\ x = XStruct [XLive (XVar 0 (XStruct [XSome] []))] [].
Proof. vm_compute. repeat split. Qed.

(** ** C67.  Full claim: a failed import leaves the variable as it was.  Proved: the elements that a sequence held are kept;
    what was read is behind them. *)
Theorem C67_elements_kept_partial : forall {St} (ops : parser_ops St) F m marker raw t l p, exists new,
  fst (fst (k_parse (kdeser ops F m marker raw (TVec t)) (XList l) p)) = XList (l ++ new).
Proof.
  intros St ops F m marker raw t l p.
  assert (H : leaves false (fun x => exists new, x = XList (l ++ new)) (k_parse (kdeser ops F m marker raw (TVec t)) (XList l) p)).
  { cbn [kdeser k_parse]. unfold x_array. assert (I0 : exists new, XList l = XList (l ++ new)) by (exists []; now rewrite app_nil_r).
    apply leaves_on; [exact I0|]. intros [tk p1]. destruct tk; try (apply leaves_end; exact I0).
    eapply leaves_weak; [apply (arr_safe ops false F _ (fun _ x => exists new, x = XList (l ++ new)))|]; [|exact I0|intros y (_ & Hy); exact Hy].
    intros i y p2 (new & ->). cbn [x_vec]. intro. destruct (k_parse (kdeser ops F m marker raw t) (up (default t)) p2) as [[z a] o]. cbn [x_in fst]. exists (new ++ [z]).
    now rewrite app_assoc. }
  apply H. discriminate.
Qed.
Print Assumptions C67_elements_kept_partial.
(** A class of which one member was read; a sequence. *)
Theorem C67_unchanged_refuted :
  (exists text, leaves_failed false ty_point (up (point 1 (bs "a"))) text (up (point 5 (bs "a"))) /\ rejects pc_default StrIn ty_point (point 1 (bs "a")) text) /\
  (exists text, leaves_failed false (TVec ty_point) (XList []) text (XList [up (point 5 [])]) /\ rejects pc_default StrIn (TVec ty_point) (VList []) text).
Proof.
  split.
  - exists (bs "{""x"":5,"). split; fuels 20%nat; [eexists|]; vm_compute; [reflexivity|exact I].
  - exists (bs "[{""x"":5,"). split; fuels 20%nat; [eexists|]; vm_compute; [reflexivity|exact I].
Qed.
Print Assumptions C67_unchanged_refuted.
Example C67_example :
  fst (fst (json_leaves false 60 pc_default (TVec (TInt IInt)) (XList [XInt 7]) (src_init StrIn (bs "[1,2,x")))) = XList [XInt 7; XInt 1; XInt 2; XSome].
Proof. vm_compute. reflexivity. Qed.
