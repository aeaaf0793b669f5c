(** * PropsParser: the properties of every run of the parser. *)
From Coq Require Import ZArith NArith List Bool String.
From Verif Require Import PyBase PyFloat Enums ErrorTable Tokenizer Ers Utils Parser SpecNum SpecParser ParserFacts.
Import List ListNotations.
Local Open Scope list_scope.
Local Open Scope nat_scope.

(** The geodesic library used in the examples. *)
Definition flat : geodesic := {| geo_inverse := fun _ _ _ _ => (f_of_Z 0, f_of_Z 0); geo_direct := fun a b _ _ => (a, b) |}.

(** C13: parsing raises ValueError for some fields ... *)
Theorem C13_never_raises_refuted : exists field, forall G depth, 30 <= depth -> raises (parse_field15 G depth field) ValueError.
Proof. exists ($"N0450F350 PNT C/PNT/N0450A0505S1130"). exact never_raises_witness. Qed.
Print Assumptions C13_never_raises_refuted.

(** ... and only for fields that contain an element N dddd A dddd S dddd or N dddd A dddd M dddd. *)
Theorem C13_never_raises_partial : forall (G : geodesic) (depth : nat) (field : pstr),
  3 * n_tokens field <= depth + 1 ->
  returns (parse_field15 G depth field) \/
  (raises (parse_field15 G depth field) ValueError /\ exists t, In t (field_tokens field) /\ raising_text (t_text t)).
Proof. exact parse_exn_cases. Qed.
Print Assumptions C13_never_raises_partial.

Example C13_example : 3 * n_tokens ($"N0450F350 DCT PNT C/") <= 20 + 1 /\ returns (parse_field15 flat 20 ($"N0450F350 DCT PNT C/")).
Proof. vm_compute. split; [repeat constructor|exact I]. Qed.

(** C14: nesting of parser-method calls is at most three per token. *)
Theorem C14_depth_linear : forall (G : geodesic) (depth : nat) (L : list token) (cur : Z) (k : nat),
  3 * length L <= depth + 1 ->
  ~ raises (parse_f15 G depth (mkSt (mkTokens L cur) new_ers k)) RecursionError.
Proof. exact no_recursion_error. Qed.
Print Assumptions C14_depth_linear.

Example C14_example : n_tokens ($"STAR STAR STAR STAR") = 4 /\ returns (parse_field15 flat 11 ($"STAR STAR STAR STAR")) /\
  raises (parse_field15 flat 8 ($"STAR STAR STAR STAR")) RecursionError.
Proof. vm_compute. repeat split. Qed.

(** The bound is exact: 3 n - 1 nested calls suffice for all fields of n tokens, fewer do not. *)
Theorem C14_exact : forall (G : geodesic) (n depth : nat),
  (forall field, n_tokens field = S n -> ~ raises (parse_field15 G depth field) RecursionError) <-> 3 * S n <= depth + 1.
Proof. exact limit_exact. Qed.
Print Assumptions C14_exact.

(** C15: every recursion limit is exceeded by some field. *)
Theorem C15_unbounded_depth_refuted : forall (G : geodesic) (depth n : nat), depth + 1 < 3 * S n ->
  exists field, n_tokens field = S n /\ raises (parse_field15 G depth field) RecursionError.
Proof. intros G depth n H. exists (stars n). split; [exact (proj2 (stars_tokens n))|exact (stars_deep G n depth H)]. Qed.
Print Assumptions C15_unbounded_depth_refuted.

Example C15_example : 2000 + 1 < 3 * S 699.
Proof. apply PeanoNat.Nat.ltb_lt. vm_compute. reflexivity. Qed.
Example C15_example_least : n_tokens (stars 2) = 3 /\ stars 2 = $"STAR STAR STAY1" /\ raises (parse_field15 flat 7 (stars 2)) RecursionError /\ returns (parse_field15 flat 8 (stars 2)).
Proof. vm_compute. repeat split. Qed.

(** C16: ADEP first, ADES last, in between elements of the field. *)
Theorem C16_adep_ades : forall (G : geodesic) (depth : nat) (field : pstr) (b : bool) (s : st),
  parse_field15 G depth field = Ok b s ->
  exists a mid z, e_recs (s_ers s) = a :: mid ++ [z] /\ aerodrome ($"ADEP") a /\ aerodrome ($"ADES") z /\
    Forall (fun r => exists t, In t (field_tokens field) /\ stands_for t r) mid.
Proof. exact adep_ades. Qed.
Print Assumptions C16_adep_ades.

(** A state reached in the examples. *)
Definition route : pstr := $"N0450F350 DCT PNT/M084F370 L613 ABC STAY1/0100 VFR PNT IFR XYZ/N0430F330 C/00N000E/N0430F330PLUS 48N005E STAR".
Definition bad_route : pstr := $"N0450F352 STAR DCT PNT UL1 IFR XYZ SID ?? 9999N000E/N0450".
Example C16_example : exists b s, parse_field15 flat 100 bad_route = Ok b s /\ length (e_recs (s_ers s)) = 8.
Proof. vm_compute. do 2 eexists. split; reflexivity. Qed.

(** C17: the return value. *)
Theorem C17_return_value : forall (G : geodesic) (depth : nat) (field : pstr) (b : bool) (s : st),
  parse_field15 G depth field = Ok b s -> (b = true <-> e_errs (s_ers s) = []).
Proof. exact return_value. Qed.
Print Assumptions C17_return_value.

Example C17_example : (exists s, parse_field15 flat 100 bad_route = Ok false s) /\ (exists s, parse_field15 flat 100 route = Ok true s).
Proof. vm_compute. split; eexists; reflexivity. Qed.

(** C18: a blank field. *)
Theorem C18_empty_field : forall (G : geodesic) (depth : nat) (field : pstr),
  (forall c, In c field -> blank c) ->
  exists s a z e, parse_field15 G depth field = Ok false s /\
    e_recs (s_ers s) = [a; z] /\ aerodrome ($"ADEP") a /\ aerodrome ($"ADES") z /\
    e_errs (s_ers s) = [e] /\ r_name e = $"NULL" /\ r_err e = $"Field 15 is empty" /\ r_base e = F15_UNKNOWN /\
    e_rules (s_ers s) = [].
Proof. exact empty_field. Qed.
Print Assumptions C18_empty_field.

Example C18_example : forall c, In c [32; 10; 9; 13; 32]%N -> blank c.
Proof. unfold blank. intros c [<-|[<-|[<-|[<-|[<-|[]]]]]]; auto. Qed.

(** C19: the first element. *)
Theorem C19_first_element : forall (G : geodesic) (depth : nat) (field : pstr) (b : bool) (s : st) (t : token) (ts : list token),
  parse_field15 G depth field = Ok b s -> field_tokens field = t :: ts ->
  t_base t <> F15_SPEED_ALTITUDE -> t_base t <> F15_SPEED_VFR ->
  b = false /\ exists e es, e_errs (s_ers s) = e :: es /\ reports t 1 e.
Proof. exact first_element. Qed.
Print Assumptions C19_first_element.

Example C19_example : exists t ts, field_tokens ($"PNT N0450F350") = t :: ts /\ t_base t = F15_POINT /\
  exists s, parse_field15 flat 100 ($"PNT N0450F350") = Ok false s.
Proof. vm_compute. do 2 eexists. split; [reflexivity|]. split; [reflexivity|]. eexists. reflexivity. Qed.

(** C20: error records. *)
Theorem C20_error_records : forall (G : geodesic) (depth : nat) (field : pstr) (b : bool) (s : st),
  parse_field15 G depth field = Ok b s -> field_tokens field <> [] ->
  Forall (fun e => exists t m, In t (field_tokens field) /\ reports t m e) (e_errs (s_ers s)).
Proof. exact errors_report. Qed.
Print Assumptions C20_error_records.

Example C20_example : exists s, parse_field15 flat 100 bad_route = Ok false s /\ length (e_errs (s_ers s)) = 7 /\ field_tokens bad_route <> [].
Proof. vm_compute. eexists. split; [reflexivity|]. split; [reflexivity|discriminate]. Qed.

(** C21: records are elements of the field, each used at most once. *)
Theorem C21_records_from_tokens : forall (G : geodesic) (depth : nat) (field : pstr) (b : bool) (s : st),
  parse_field15 G depth field = Ok b s ->
  exists a mid z js, e_recs (s_ers s) = a :: mid ++ [z] /\ NoDup js /\
    Forall2 (fun j r => exists t, nth_error (field_tokens field) j = Some t /\ stands_for t r) js mid /\
    length (e_recs (s_ers s)) <= n_tokens field + 2.
Proof. exact records_from_tokens. Qed.
Print Assumptions C21_records_from_tokens.

Example C21_example : n_tokens bad_route = 12 /\ exists b s, parse_field15 flat 100 bad_route = Ok b s /\
  map r_name (e_recs (s_ers s)) = [$"ADEP"; $"STAR"; $"DCT"; $"PNT"; $"UL1"; $"XYZ"; $"SID"; $"ADES"].
Proof. vm_compute. split; [reflexivity|]. do 2 eexists. split; reflexivity. Qed.

(** C25: flight rules. *)
Theorem C25_rules : forall (G : geodesic) (depth : nat) (field : pstr) (b : bool) (s : st),
  parse_field15 G depth field = Ok b s -> field_tokens field <> [] ->
  exists first mid before last,
    e_recs (s_ers s) = mid ++ [before; last] /\ hd_error (e_recs (s_ers s)) = Some first /\
    Forall some_flight_rules (e_recs (s_ers s)) /\ r_rules last = r_rules before /\
    (e_rules (s_ers s) = $"V" <-> r_rules first = $"VFR" /\ ~ exists r, In r (e_recs (s_ers s)) /\ r_rules r = $"IFR") /\
    (e_rules (s_ers s) = $"Z" <-> r_rules first = $"VFR" /\ exists r, In r (e_recs (s_ers s)) /\ r_rules r = $"IFR") /\
    (e_rules (s_ers s) = $"I" <-> r_rules first <> $"VFR" /\ ~ exists r, In r (e_recs (s_ers s)) /\ r_rules r = $"VFR") /\
    (e_rules (s_ers s) = $"Y" <-> r_rules first <> $"VFR" /\ exists r, In r (e_recs (s_ers s)) /\ r_rules r = $"VFR").
Proof. exact rules_field. Qed.
Print Assumptions C25_rules.

Example C25_example : (exists s, parse_field15 flat 100 route = Ok true s /\ e_rules (s_ers s) = $"Y") /\ field_tokens route <> [] /\
  (exists s, parse_field15 flat 100 ($"N0120VFR ABC") = Ok true s /\ e_rules (s_ers s) = $"V").
Proof. vm_compute. split; [eexists; split; reflexivity|]. split; [discriminate|]. eexists. split; reflexivity. Qed.

(** C31: strings and SI values of every record. *)
Theorem C31_si_agrees : forall (G : geodesic) (depth : nat) (field : pstr) (b : bool) (s : st),
  parse_field15 G depth field = Ok b s ->
  Forall (fun r => no_performance r \/ si_agrees r) (e_recs (s_ers s)).
Proof. exact perf_field. Qed.
Print Assumptions C31_si_agrees.

Example C31_example : exists s, parse_field15 flat 100 route = Ok true s /\
  map (fun r => (r_alt r, r_speed r)) (firstn 4 (e_recs (s_ers s)))
  = [($"F350", $"N0450"); ($"F350", $"N0450"); ($"F370", $"M084"); ($"F370", $"M084")].
Proof. vm_compute. eexists. split; reflexivity. Qed.

(** C45: parsing leaves the tokens alone but for their types. *)
Theorem C45_tokens_kept : forall (G : geodesic) (depth : nat) (L : list token) (cur : Z) (k : nat),
  tk_list (s_toks (final (parse_f15 G depth (mkSt (mkTokens L cur) new_ers k)))) = map typed L.
Proof. exact tokens_kept. Qed.
Print Assumptions C45_tokens_kept.

Example C45_example : map t_base (field_tokens bad_route)
  = [F15_SPEED_ALTITUDE; F15_STAR; F15_DCT; F15_POINT; F15_ROUTE; F15_BREAK_END; F15_POINT; F15_SID; F15_UNKNOWN; F15_UNKNOWN; F15_SLASH; F15_UNKNOWN].
Proof. vm_compute. reflexivity. Qed.

(** C46: cursor and old types do not matter; a second parse of the same Tokens object gives the same result. *)
Theorem C46_texts_positions : forall (G : geodesic) (depth : nat) (L L' : list token) (c c' : Z) (e : ers) (k : nat),
  map skin L = map skin L' ->
  parse_f15 G depth (mkSt (mkTokens L c) e k) = parse_f15 G depth (mkSt (mkTokens L' c') e k).
Proof. exact parse_skin. Qed.
Print Assumptions C46_texts_positions.

Theorem C46_parse_again : forall (G : geodesic) (depth : nat) (L : list token) (c : Z) (k : nat),
  parse_f15 G depth (mkSt (s_toks (final (parse_f15 G depth (mkSt (mkTokens L c) new_ers k)))) new_ers k)
  = parse_f15 G depth (mkSt (mkTokens L c) new_ers k).
Proof. exact parse_again. Qed.
Print Assumptions C46_parse_again.

Example C46_example : map skin [new_token ($"DCT") 0 3] = map skin [mkToken ($"DCT") 0 3 F15_POINT F15_SB_PRP_AERO] /\
  new_token ($"DCT") 0 3 <> mkToken ($"DCT") 0 3 F15_POINT F15_SB_PRP_AERO.
Proof. split; [reflexivity|discriminate]. Qed.

(** C51: at most six parser-method invocations per token. *)
Theorem C51_linear_work : forall (G : geodesic) (depth : nat) (L : list token) (cur : Z) (k : nat),
  s_calls (final (parse_f15 G depth (mkSt (mkTokens L cur) new_ers k))) <= k + 6 * length L.
Proof. exact calls_linear. Qed.
Print Assumptions C51_linear_work.

Example C51_example : exists b s, parse_field15 flat 100 bad_route = Ok b s /\ s_calls s = 23 /\ n_tokens bad_route = 12.
Proof. vm_compute. do 2 eexists. split; [reflexivity|]. split; reflexivity. Qed.
