(** * PropsDescriptions: C68 and C69. *)
From Coq Require Import ZArith NArith List Bool String.
From Verif Require Import PyBase Enums Regex SyntaxTable Syntax Xml Print SpecRegex SyntaxProofs Descriptions SpecDescriptions DescriptionFacts.
Import List ListNotations.
Local Open Scope list_scope.
Local Open Scope nat_scope.

(** C68: get_token_type returns the first configured row whose pattern describes the whole text, with
    its pattern; if no row does, a row with an empty pattern. *)
Theorem C68_row_returned : forall (s : pstr) (x : item), get_token_item s = x <->
  (exists i row, nth_error f15_configuration i = Some row /\ first_row i s /\ x = item_of_row row) \/
  ((forall row, In row f15_configuration -> ~ row_matches row s) /\ x = ([], F15_UNKNOWN, F15_SB_UNKNOWN)).
Proof. exact get_token_item_spec. Qed.
Print Assumptions C68_row_returned.

(** The pattern is empty exactly for an unknown token, and the types are the ones the parser uses. *)
Theorem C68_empty_pattern : forall s : pstr,
  (fst (fst (get_token_item s)) = [] <-> snd (fst (get_token_item s)) = F15_UNKNOWN) /\
  (let '(_, b, sb) := get_token_item s in (b, sb) = get_token_type s).
Proof. intro s. exact (conj (get_token_item_empty s) (get_token_item_type s)). Qed.
Print Assumptions C68_empty_pattern.

Example C68_example : get_token_item ($"UL607") = ($"[A-Z]{2}[0-9]{2,3}", F15_ROUTE, F15_SB_ATS) /\ first_row 35 ($"UL607") /\
  get_token_item ($"abc") = ([], F15_UNKNOWN, F15_SB_UNKNOWN).
Proof. split; [vm_compute; reflexivity|]. split; [apply first_row_b_spec; vm_compute; reflexivity|vm_compute; reflexivity]. Qed.

(** C69: from Python 3.11 on, print_descriptions prints one line for every row, in order, in aligned columns. *)
Theorem C69_printed_configuration_partial : exists lines,
  print_descriptions Py311 = flat_map (fun l => l ++ [10%N]) lines /\ Forall2 (described Py311) f15_configuration lines.
Proof. exact printed_311. Qed.
Print Assumptions C69_printed_configuration_partial.

(** In Python 3.10 the lines of the speed/level/level rows are one character too long; all others are aligned. *)
Theorem C69_python_310 : exists lines, print_descriptions Py310 = flat_map (fun l => l ++ [10%N]) lines /\
  Forall2 (fun row l => if long_base row then length l = 131 else described Py310 row l) f15_configuration lines.
Proof. exact printed_310. Qed.
Print Assumptions C69_python_310.
Theorem C69_printed_configuration_refuted : exists v row, In row f15_configuration /\
  forall line, described v row line -> line <> description_line v (item_of_row row).
Proof. exact misaligned_310. Qed.
Print Assumptions C69_printed_configuration_refuted.

Example C69_example : existsb long_base f15_configuration = true /\ existsb (fun row => negb (long_base row)) f15_configuration = true /\
  description_line Py311 (item_of_row ("DCT"%string, F15_DCT, F15_SB_DCT)) =
  repeat 32%N 37 ++ $"DCT " ++ repeat 32%N 39 ++ $"5   5 " ++ repeat 32%N 39 ++ $"2   2".
Proof. vm_compute. repeat split. Qed.
