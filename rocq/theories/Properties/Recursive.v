(** C87: classes that refer to themselves.

    [unroll i ms ps stop n]: the class with the members [ms] and the parents [ps], in which [RSelf] is the class itself, with its declaration read [n] times and [stop]
    in place of the class in the innermost one (Model/Recursive.v).  [guarded], [parents_ok], [levels]: Spec/Recursive.v. *)
From Coq Require Import ZArith String List Bool Lia ZifyBool.
From Verif Require Import Model.Base Model.Source Model.Number Model.ParserInterface Model.Types Model.Importer Model.JsonPrinter Model.Exporter Model.BsonDoc Model.Recursive
  Spec.Json Spec.Typed Spec.Denotes Spec.Import Spec.Recursive
  Proofs.RecursiveP Proofs.RecursiveBsonP Proofs.RecursiveOutP Proofs.JsonCheck Properties.Imports Properties.Exports.
Import ListNotations.
Open Scope Z_scope.

(** ** C87.  Full claim: importing into a class that refers to itself, and exporting it, does what the theorems for classes without such members say, however often
    its declaration is read, as long as that is more often than the input has bytes, or the value has objects inside one another.
    Import of JSON: any text, any configuration, any old value. *)
Theorem C87_json_import : forall fuel cfg i ms ps k text v stop stop' n n', guarded (RClass i ms ps) = true -> parents_ok (RClass i ms ps) = true ->
  (List.length text < n)%nat -> (List.length text < n')%nat ->
  json_extract fuel cfg (unroll i ms ps stop n) v (src_init k text) = json_extract fuel cfg (unroll i ms ps stop' n') v (src_init k text).
Proof. exact json_unroll. Qed.
Print Assumptions C87_json_import.
(** Export as JSON: any value. *)
Theorem C87_json_export : forall c k i ms ps stop stop' n n' v, guarded (RClass i ms ps) = true -> (levels v < n)%nat -> (levels v < n')%nat ->
  json_export c k (unroll i ms ps stop n) v = json_export c k (unroll i ms ps stop' n') v.
Proof. exact json_export_unroll. Qed.
Print Assumptions C87_json_export.
(** BSON.  Missing for imports: from a std::string, where a negative length moves the reader back. *)
Theorem C87_bson_import_partial : forall fuel cfg i ms ps text v stop stop' n n', guarded (RClass i ms ps) = true -> parents_ok (RClass i ms ps) = true ->
  (List.length text < n)%nat -> (List.length text < n')%nat ->
  bson_extract fuel cfg (unroll i ms ps stop n) v (src_init Strm text) = bson_extract fuel cfg (unroll i ms ps stop' n') v (src_init Strm text).
Proof. exact bson_unroll. Qed.
Print Assumptions C87_bson_import_partial.
Theorem C87_bson_export : forall c k proj ids i ms ps stop stop' n n' v, guarded (RClass i ms ps) = true -> (levels v < n)%nat -> (levels v < n')%nat ->
  bson_export c k proj ids (unroll i ms ps stop n) v = bson_export c k proj ids (unroll i ms ps stop' n') v.
Proof. exact bson_export_unroll. Qed.
Print Assumptions C87_bson_export.

(** So every theorem about imports and exports holds for such classes.  The round trip (C26), for instance. *)
Lemma same_default : forall i ms ps stop stop' n n', guarded (RClass i ms ps) = true -> (0 < n)%nat -> (0 < n')%nat -> default (unroll i ms ps stop n) = default (unroll i ms ps stop' n').
Proof. intros i ms ps stop stop' [|n] [|n'] G H H'; [lia..|]. cbn [unroll]. apply default_guarded. exact G. Qed.
Theorem C87_round_trip_partial : forall c k cfg src i ms ps stop n v out, guarded (RClass i ms ps) = true -> parents_ok (RClass i ms ps) = true ->
  pc_conv cfg = true -> pc_marker cfg = pf_marker c ->
  let t := unroll i ms ps stop n in
  reads_back (pc_strict cfg) (pf_marker c) t v -> plain_keys t v -> plain_names t -> plain_name (pf_marker c) -> indent_ok c v ->
  json_export c k t v = Exported out -> (List.length out < n)%nat ->
  forall stop' m, (List.length out < m)%nat -> accepts cfg src (unroll i ms ps stop' m) (default (unroll i ms ps stop' m)) out v.
Proof.
  intros c k cfg src i ms ps stop n v out G P Hc Hm t B K Nm M R E L stop' m Lm. destruct (C26_round_trip_partial c k cfg src t v out Hc Hm B K Nm M R E) as (rest & W & N & H).
  exists rest. split; [exact W|]. exists N. intros fuel Hf. destruct (H fuel Hf) as (s & Es & Os & Rs). exists s. split; [|split; [exact Os|exact Rs]].
  rewrite <- Es, (same_default i ms ps stop' stop m n G) by lia. apply json_unroll; assumption.
Qed.
Print Assumptions C87_round_trip_partial.

(** ** A linked list: struct Node { int value; std::unique_ptr<Node> next; }. *)
Definition node_info : sinfo := mkSinfo [bs "value"; bs "next"] [] [] false false false.
Definition node (stop : ty) (n : nat) : ty := unroll node_info [RHere (TInt IInt); RPtr RSelf] [] stop n.
Fixpoint chain (x : Z) (xs : list Z) : val :=
  VStruct [VInt x; VPtr (match xs with [] => None | y :: r => Some (chain y r) end)] [].
Lemma chain_levels : forall xs x, levels (chain x xs) = S (List.length xs).
Proof. induction xs as [|y r IH]; intro x; [reflexivity|]. cbn [chain levels map list_max fold_right]. rewrite IH. cbn [List.length]. lia. Qed.
Lemma node_types : forall P : ty -> Prop, P TBool -> P (TInt IInt) -> (forall n, P (node TBool n)) -> (forall n, P (TPtr (node TBool n))) -> forall n, types P (node TBool n).
Proof.
  intros P P1 P2 P3 P4. induction n as [|n IH]; [split; [exact P1|exact Logic.I]|]. unfold node in *. cbn [unroll fill map node_info types] in *. split; [apply (P3 (S n))|].
  split; [|exact Logic.I]. split; [split; [exact P2|exact Logic.I]|]. split; [|exact Logic.I]. split; [apply P4|exact IH].
Qed.
Lemma node_each : forall P : ty -> val -> Prop, (forall z, fits IInt z -> P (TInt IInt) (VInt z)) -> (forall n x xs, P (node TBool (S n)) (chain x xs)) -> (forall n o, (forall x, o = Some x -> exists y r, x = chain y r) -> P (TPtr (node TBool n)) (VPtr o)) ->
  forall xs x n, fits IInt x -> Forall (fits IInt) xs -> (List.length xs < n)%nat -> each P (node TBool n) (chain x xs).
Proof.
  intros P P1 P2 P3. induction xs as [|y r IH]; intros x n Fx Fs L; (destruct n as [|n]; [cbn [List.length] in L; lia|]).
  - split; [apply P2|]. split; [|exact Logic.I]. split; [split; [apply P1; exact Fx|exact Logic.I]|]. split; [|exact Logic.I]. split; [apply P3; discriminate|exact Logic.I].
  - inversion Fs as [|? ? Fy Fr]; subst. cbn [List.length] in L. split; [apply (P2 n x (y :: r))|]. split; [|exact Logic.I]. split; [split; [apply P1; exact Fx|exact Logic.I]|]. split; [|exact Logic.I].
    split; [apply P3; intros z Ez; injection Ez as <-; exists y, r; reflexivity|]. apply IH; [exact Fy|exact Fr|lia].
Qed.
Lemma node_shaped : forall xs x n, (List.length xs < n)%nat -> shaped (node TBool n) (chain x xs) = true.
Proof.
  induction xs as [|y r IH]; intros x n L; (destruct n as [|n]; [cbn [List.length] in L; lia|]); [reflexivity|]. cbn [List.length] in L. assert (H := IH y n ltac:(lia)). unfold node in *.
  cbn [unroll fill map node_info shaped chain all2b andb]. rewrite H. reflexivity.
Qed.
(** Lists of any length are read back. *)
Theorem C87_list : forall c k cfg src x xs out n, pc_conv cfg = true -> pc_marker cfg = pf_marker c -> plain_name (pf_marker c) -> fits IInt x -> Forall (fits IInt) xs ->
  indent_ok c (chain x xs) -> (S (List.length xs) < n)%nat -> json_export c k (node TBool n) (chain x xs) = Exported out ->
  forall m, (List.length out < m)%nat -> accepts cfg src (node TBool m) (default (node TBool m)) out (chain x xs).
Proof.
  intros c k cfg src x xs out n Hc Hm Hp Fx Fs Hi Ln E m Lm. set (w := S (n + List.length out)).
  assert (Ew : json_export c k (node TBool w) (chain x xs) = Exported out) by (rewrite <- E; apply json_export_unroll; [reflexivity|..]; rewrite chain_levels; lia).
  assert (Lw : (List.length xs < w)%nat) by lia. assert (Lo : (List.length out < w)%nat) by lia. clearbody w. clear E Ln n.
  apply (C87_round_trip_partial c k cfg src node_info [RHere (TInt IInt); RPtr RSelf] [] TBool w); try assumption; try reflexivity.
  - unfold reads_back. fold (node TBool w). split; [|split; [split|split; [|split; [|split]]]].
    + clear. induction w as [|w IH]; [reflexivity|]. unfold node in *. cbn [unroll fill map node_info wf forallb]. rewrite IH. reflexivity.
    + apply node_shaped. exact Lw.
    + apply node_each; try assumption; try (intros; exact Logic.I). intros z H. exact H.
    + apply node_types; try exact Logic.I; try (intros; exact Logic.I). intros [|n]; [exact Logic.I|]. split; [cbn; conds|discriminate].
    + apply node_each; try assumption; try (intros; exact Logic.I). intros n [z|] H; [|exact Logic.I]. destruct (H z eq_refl) as (y & r & ->). destruct n, r; reflexivity.
    + intros _. clear. induction w as [|w IH]; [reflexivity|]. unfold node in *. cbn [unroll fill map node_info untagged forallb si_mark negb]. rewrite IH. reflexivity.
    + intros _. split.
      * apply node_each; try assumption; try (intros; exact Logic.I). intros n y r. destruct r; cbn; conds.
      * apply node_types; try reflexivity. intros [|n]; reflexivity.
  - apply node_each; try assumption; intros; exact Logic.I.
  - apply node_types; try exact Logic.I; try (intros; exact Logic.I). intros [|n]; [exact Logic.I|]. split; cbn -[plain_name]; conds.
Qed.
Print Assumptions C87_list.
(** Examples.  A list of three, and a tree whose nodes hold their children in a vector. *)
Example C87_example : forall src, exists out, json_export pf_default ToStream (node TBool 5) (chain 1 [2; -3]) = Exported out /\
  forall m, (List.length out < m)%nat -> accepts (pc_mode Exact) src (node TBool m) (default (node TBool m)) out (chain 1 [2; -3]).
Proof.
  intro src. eexists. split; [vm_compute; reflexivity|]. apply (C87_list pf_default ToStream (pc_mode Exact) src 1 [2; -3] _ 5); try reflexivity.
  - cbn [pf_default pf_marker]. conds.
  - conds.
  - conds.
  - intros _. right. unfold indent_room. cbn. lia.
  - cbn. lia.
Qed.
Definition branch (n : nat) : ty := unroll (mkSinfo [bs "name"; bs "children"] [] [] false false false) [RHere TStr; RSeq CBack RSelf] [] TBool n.
Example C87_tree : forall m, (49 < m)%nat -> exists s, json_extract 60 pc_default (branch m) (default (branch 1))
    (src_init StrIn (bs "{""name"":""a"",""children"":[{""name"":""b""},{""x"":{}}]}")) =
  Returned (VStruct [VStr (bs "a"); VList [VStruct [VStr (bs "b"); VList []] []; VStruct [VStr []; VList []] []]] []) s.
Proof.
  intros m L. unfold branch. rewrite (C87_json_import 60 pc_default _ _ _ StrIn _ _ TBool TBool m 50) by (try reflexivity; cbn [List.length bs]; vm_compute; lia).
  eexists. vm_compute. reflexivity.
Qed.
