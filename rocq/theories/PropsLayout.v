(** * PropsLayout: the layout of a field does not influence the route. *)
From Coq Require Import ZArith NArith List Bool String.
From Verif Require Import PyBase PyFloat Enums Tokenizer Ers Utils Parser SpecTokenizer SpecParser SpecLayout Layout PropsParser.
Import List ListNotations.
Local Open Scope list_scope.
Local Open Scope nat_scope.

(** C50: fields with the same token texts have the same outcome, records and errors except for the indices. *)
Theorem C50_layout : forall (G : geodesic) (depth : nat) (a b : pstr),
  texts f15_whitespace a = texts f15_whitespace b ->
  same_outcome (parse_field15 G depth a) (parse_field15 G depth b).
Proof. exact layout_same. Qed.
Print Assumptions C50_layout.

(** The three rewritings of a field that keep its token texts: the blanks between two elements ... *)
Theorem C50_gaps : forall (G : geodesic) (depth : nat) (a bs cs b : pstr),
  Forall blank bs -> Forall blank cs -> bs <> [] -> cs <> [] ->
  same_outcome (parse_field15 G depth (a ++ bs ++ b)) (parse_field15 G depth (a ++ cs ++ b)).
Proof. intros G depth a bs cs b B C N1 N2. exact (layout_same G depth _ _ (texts_gap a bs cs b B C N1 N2)). Qed.
Print Assumptions C50_gaps.

(** ... around a '/' ... *)
Theorem C50_around_slash : forall (G : geodesic) (depth : nat) (a bs cs b : pstr),
  Forall blank bs -> Forall blank cs ->
  same_outcome (parse_field15 G depth (a ++ bs ++ slash :: cs ++ b)) (parse_field15 G depth (a ++ slash :: b)).
Proof. intros G depth a bs cs b B C. exact (layout_same G depth _ _ (texts_around a bs cs b B C)). Qed.
Print Assumptions C50_around_slash.

(** ... and at both ends. *)
Theorem C50_ends : forall (G : geodesic) (depth : nat) (bs a cs : pstr),
  Forall blank bs -> Forall blank cs ->
  same_outcome (parse_field15 G depth (bs ++ a ++ cs)) (parse_field15 G depth a).
Proof.
  intros G depth bs a cs B C.
  exact (layout_same G depth _ _ (eq_trans (texts_blanks_app bs (a ++ cs) B) (texts_app_blanks a cs C))).
Qed.
Print Assumptions C50_ends.

(** Two layouts of one route with an error, and a route that raises, twice. *)
Definition spread (s : pstr) : pstr := flat_map (fun c => if N.eqb c 47 then [10; 47; 9; 32]%N else if N.eqb c 32 then [32; 13; 10]%N else [c]) s.
Example layout_example :
  texts f15_whitespace route = texts f15_whitespace (spread route) /\ route <> spread route /\
  (exists s, parse_field15 flat 40 route = Ok true s) /\ (exists s, parse_field15 flat 40 (spread route) = Ok true s).
Proof. split; [vm_compute; reflexivity|split; [intro H; vm_compute in H; discriminate|split; vm_compute; eexists; reflexivity]]. Qed.
Example layout_error_example :
  texts f15_whitespace bad_route = texts f15_whitespace (spread bad_route) /\ bad_route <> spread bad_route /\
  (exists s, parse_field15 flat 60 (spread bad_route) = Ok false s).
Proof. split; [vm_compute; reflexivity|split; [intro H; vm_compute in H; discriminate|vm_compute; eexists; reflexivity]]. Qed.
