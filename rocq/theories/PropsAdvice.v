(** * PropsAdvice: doing what the message about the first error asks for. *)
From Coq Require Import ZArith NArith List Bool String.
From Verif Require Import PyBase PyFloat Enums ErrorTable Tokenizer Ers Utils Parser SpecTokenizer SpecParser SpecGrammar SpecDiagnosis SpecViable SpecAdvice Advice AdviceRule.
From Verif Require Import PropsParser PropsAccept PropsDiagnosis.
Import List ListNotations.
Local Open Scope list_scope.
Local Open Scope nat_scope.

(** C116. When the message names something that is missing before the reported element ([advises]), then in every
    field in which it is put there nothing up to and including that element is wrong any more: the field is
    accepted, or its first error is further on or about the end. *)
Theorem C116_advice_partial : forall (G : geodesic) (field g : pstr) (i : nat) (t : token) (m : Z) (ws : list pstr),
  diagnose (field_tokens field) = Report t m -> nth_error (field_tokens field) i = Some t -> sound t ->
  advises i (match i with O => None | S j => nth_error (field_tokens field) j end) t m ws ->
  firstn (S (i + length ws)) (element_texts g) = firstn i (element_texts field) ++ ws ++ [t_text t] ->
  forall depth b s, parse_field15 G depth g = Ok b s ->
  b = true \/ exists j u n e es, nth_error (field_tokens g) j = Some u /\ e_errs (s_ers s) = e :: es /\ reports u n e /\ (i + length ws < j \/ end_message n = true).
Proof. exact advice_followed. Qed.
Print Assumptions C116_advice_partial.

(** When the message says what is missing at the end ([supplies]), the field with it is accepted. *)
Theorem C116_end : forall (G : geodesic) (field g : pstr) (t : token) (m : Z) (ws : list pstr),
  diagnose (field_tokens field) = Report t m -> supplies m ws -> element_texts g = element_texts field ++ ws ->
  exists s, parse_field15 G (3 * n_tokens g) g = Ok true s.
Proof. exact end_supplied. Qed.
Print Assumptions C116_end.

(** When the message says that the change of rules to IFR is not complete (22), the field up to the reported point
    with a speed and level, or a speed and VFR, after it is accepted. *)
Theorem C116_rule_change : forall (G : geodesic) (field g : pstr) (i : nat) (t : token) (w : pstr),
  diagnose (field_tokens field) = Report t 22 -> nth_error (field_tokens field) i = Some t -> sound t ->
  a_speed w \/ of_type F15_SPEED_VFR w ->
  element_texts g = firstn (S i) (element_texts field) ++ [$"/"; w] ->
  exists s, parse_field15 G (3 * n_tokens g) g = Ok true s.
Proof. exact rule_change_completed. Qed.
Print Assumptions C116_rule_change.
Example C116_rule_change_example :
  let f := $"N0450F350 ABC VFR NEAR XYZ IFR DEF" in
  let t := nth 6 (field_tokens f) (element []) in
  says f = Some ($"DEF", 22%Z) /\ diagnose (field_tokens f) = Report t 22 /\ nth_error (field_tokens f) 6 = Some t /\ sound t /\
  (a_speed ($"N0430F330") /\ element_texts ($"N0450F350 ABC VFR NEAR XYZ IFR DEF/N0430F330") = firstn 7 (element_texts f) ++ [$"/"; $"N0430F330"] /\
   accepts ($"N0450F350 ABC VFR NEAR XYZ IFR DEF/N0430F330")) /\
  (of_type F15_SPEED_VFR ($"N0430VFR") /\ accepts ($"N0450F350 ABC VFR NEAR XYZ IFR DEF/N0430VFR")).
Proof. cbv zeta. repeat match goal with |- _ /\ _ => split end; try (vm_compute; reflexivity); try (unfold sound, a_speed; vm_compute; repeat split; reflexivity); eexists; vm_compute; reflexivity. Qed.

(** Where the advice does not help: a cruise climb (9) or a stay (10) asked for directly after the first
    speed/level, and a stay asked for after a route. *)
Theorem C116_advice_refuted :
  (says ($"N0450F350 N0450F350F390") = Some ($"N0450F350F390", 9%Z) /\ says ($"N0450F350 C/ABC/N0450F350F390") = Some ($"C", 23%Z)) /\
  (says ($"N0450F350 0100 DCT ABC") = Some ($"0100", 10%Z) /\ says ($"N0450F350 STAY1/0100 DCT ABC") = Some ($"STAY1", 23%Z)) /\
  (says ($"N0450F350 ABC UL613 0100 DEF") = Some ($"0100", 10%Z) /\ says ($"N0450F350 ABC UL613 STAY1/0100 DEF") = Some ($"STAY1", 15%Z)).
Proof. repeat split; vm_compute; reflexivity. Qed.
Print Assumptions C116_advice_refuted.

(** Each kind of advice. *)
Example C116_example :
  (says ($"ABC UL613 DEF") = Some ($"ABC", 1%Z) /\ accepts ($"N0450F350 ABC UL613 DEF") /\ advises 0 None (element ($"ABC")) 1 [$"N0450F350"] /\ sound (element ($"ABC"))) /\
  (says ($"N0450F350 ABC UL613 UM728 DEF") = Some ($"UM728", 53%Z) /\ accepts ($"N0450F350 ABC UL613 XYZ UM728 DEF") /\ advises 3 (Some (element ($"UL613"))) (element ($"UM728")) 53 [$"XYZ"]) /\
  (says ($"N0450F350 ABC DCT DCT DEF") = Some ($"DCT", 21%Z) /\ accepts ($"N0450F350 ABC DCT XYZ DCT DEF") /\ advises 3 (Some (element ($"DCT"))) (element ($"DCT")) 21 [$"XYZ"]) /\
  (says ($"N0450F350 ABC N0430F330 DEF") = Some ($"N0430F330", 5%Z) /\ accepts ($"N0450F350 ABC/N0430F330 DEF") /\ advises 2 (Some (element ($"ABC"))) (element ($"N0430F330")) 5 [$"/"]) /\
  (says ($"N0450F350 ABC UL613 DEF N0430F330F390 GHI") = Some ($"N0430F330F390", 9%Z) /\ accepts ($"N0450F350 ABC UL613 DEF C/DEF/N0430F330F390 GHI") /\
    advises 4 (Some (element ($"DEF"))) (element ($"N0430F330F390")) 9 [$"C"; $"/"; $"DEF"; $"/"] /\ sound (element ($"N0430F330F390"))) /\
  (says ($"N0450F350 ABC 0100 DEF") = Some ($"0100", 10%Z) /\ accepts ($"N0450F350 ABC STAY1/0100 DEF") /\ advises 2 (Some (element ($"ABC"))) (element ($"0100")) 10 [$"STAY1"; $"/"]) /\
  (says ($"N0450F350 ABC C/") = Some ($"/", 52%Z) /\ accepts ($"N0450F350 ABC C/DEF/N0430F330F390") /\ supplies 52 [$"DEF"; $"/"; $"N0430F330F390"]).
Proof.
  repeat match goal with |- _ /\ _ => split end; try (vm_compute; reflexivity); try (eexists; vm_compute; reflexivity); try (vm_compute; auto; fail).
  - apply Add_speed; vm_compute; auto.
  - apply Add_point; vm_compute; auto 10.
  - apply Add_end; vm_compute; auto.
  - now apply Add_slash.
  - apply Add_climb; [reflexivity|discriminate|vm_compute; auto].
  - apply Add_stay; [reflexivity|discriminate| |vm_compute; reflexivity]. intros q H. injection H as <-. vm_compute. discriminate.
  - apply End_climb; vm_compute; auto.
Qed.
