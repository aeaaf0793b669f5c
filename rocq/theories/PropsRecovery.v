(** * PropsRecovery: what may be relied upon when a field has errors. *)
From Coq Require Import ZArith NArith List Bool String Sorted.
From Verif Require Import PyBase PyFloat Enums ErrorTable Tokenizer Ers Utils Parser SpecNum SpecParser SpecGrammar SpecRecovery RecoveryFacts.
From Verif Require Import PropsParser PropsGrammar PropsAccept.
Import List ListNotations.
Local Open Scope list_scope.
Local Open Scope nat_scope.

(** C59. Every element is shown by the result, up to some place in the field.  That place is the end of the field, or an
    IFR, GAT or IFPSTART keyword in a field that is rejected. *)
Theorem C59_nothing_skipped : forall (G : geodesic) (depth : nat) (field : pstr) (b : bool) (s : st),
  field_tokens field <> [] -> parse_field15 G depth field = Ok b s ->
  exists before after, field_tokens field = before ++ after /\
    (forall t, In t before -> is_element t = true -> shown (s_ers s) t) /\
    (after = [] \/ b = false /\ exists l t, before = l ++ [t] /\ t_base t = F15_BREAK_END).
Proof. exact nothing_skipped. Qed.
Print Assumptions C59_nothing_skipped.

(** A field without these keywords is shown completely. *)
Theorem C59_without_keywords : forall (G : geodesic) (depth : nat) (field : pstr) (b : bool) (s : st) (t : token),
  parse_field15 G depth field = Ok b s -> (forall x, In x (field_tokens field) -> t_base x <> F15_BREAK_END) ->
  In t (field_tokens field) -> is_element t = true -> shown (s_ers s) t.
Proof. exact all_shown. Qed.
Print Assumptions C59_without_keywords.

Example C59_example : let field := $"N0450F350 ABC ??? UL9 XYZ VFR DCT one ?" in
  match parse_field15 flat 40 field with
  | Ok b s => b = false /\ (forall x, In x (field_tokens field) -> t_base x <> F15_BREAK_END) /\
      map (fun t => is_element t) (field_tokens field) = [false; true; true; true; true; true; true; true; true] /\
      map r_name (e_recs (s_ers s)) = [$"ADEP"; $"ABC"; $"UL9"; $"XYZ"; $"VFR"; $"ADES"] /\
      map r_break (e_recs (s_ers s)) = [[]; []; []; []; $"DCT one ?"; []] /\ map r_name (e_errs (s_ers s)) = [$"???"]
  | Exn _ _ => False
  end.
Proof. vm_compute. repeat split. intros x H. repeat destruct H as [ <- | H ]; try discriminate. destruct H. Qed.

(** C60. The records between ADEP and ADES are in the order of the field, unless message 48 is reported. *)
Theorem C60_records_in_order : forall (G : geodesic) (depth : nat) (field : pstr) (b : bool) (s : st),
  field_tokens field <> [] -> parse_field15 G depth field = Ok b s ->
  Exists (fun x => exists t, reports t 48 x) (e_errs (s_ers s)) \/
  exists a mid z, e_recs (s_ers s) = a :: mid ++ [z] /\ StronglySorted Z.lt (map r_start mid).
Proof. exact records_in_order. Qed.
Print Assumptions C60_records_in_order.

(** Both alternatives occur, and 48 cannot be left out (C22). *)
Example C60_example : match parse_field15 flat 40 ($"N0450F350 ABC / ?? C XYZ SID DEF") with
  | Ok b s => b = false /\ map r_start (e_recs (s_ers s)) = [0; 10; 19; 21; 25; 29; 0]%Z /\ map r_name (e_errs (s_ers s)) = [$"??"; $"SID"]
  | Exn _ _ => False
  end.
Proof. vm_compute. repeat split. Qed.

(** C61. The errors are in the order of the field, unless message 48 or 28 is reported. *)
Theorem C61_errors_in_order : forall (G : geodesic) (depth : nat) (field : pstr) (b : bool) (s : st),
  field_tokens field <> [] -> parse_field15 G depth field = Ok b s ->
  Exists (fun x => exists t, reports t 48 x \/ reports t 28 x) (e_errs (s_ers s)) \/ StronglySorted Z.le (map r_start (e_errs (s_ers s))).
Proof. exact errors_in_order. Qed.
Print Assumptions C61_errors_in_order.

(** These messages cannot be left out. *)
Theorem C61_unless_48 : exists (G : geodesic) (depth : nat) (field : pstr) (s : st),
  parse_field15 G depth field = Ok false s /\ ~ StronglySorted Z.le (map r_start (e_errs (s_ers s))) /\
  map r_err (e_errs (s_ers s)) = [$"Lat/Long '91N000E' cannot follow an ATS route"; $"The element '??' is an unrecognised Field 15 element"; $"Latitude degree value must be 0 to 90 instead of '91N000E'"].
Proof.
  exists flat, 40, ($"N0450F350 ABC UL9 91N000E ??"). eexists. split; [vm_compute; reflexivity|]. split; [|vm_compute; reflexivity].
  vm_compute. intro H. apply StronglySorted_inv in H as [H _]. apply StronglySorted_inv in H as [_ H]. inversion H as [|? ? K]. now apply K.
Qed.
Theorem C61_unless_28 : exists (G : geodesic) (depth : nat) (field : pstr) (s : st),
  parse_field15 G depth field = Ok false s /\ ~ StronglySorted Z.le (map r_start (e_errs (s_ers s))) /\ map r_name (e_errs (s_ers s)) = [$"DEF"; $"ABC"].
Proof.
  exists flat, 40, ($"N0450F350 PNT C/ABC DEF"). eexists. split; [vm_compute; reflexivity|]. split; [|vm_compute; reflexivity].
  vm_compute. intro H. apply StronglySorted_inv in H as [_ H]. inversion H as [|? ? K]. now apply K.
Qed.
Print Assumptions C61_unless_48.
Print Assumptions C61_unless_28.
