(** * UnitTests2: UnitTests/test_Tokenize.py, test_Tokens.py, test_Token.py and test_Utils.py of /repo, replayed
    on the model by computation.  Validation of the model only (tests, not proofs).  Not replayed: the cases
    about geographiclib, enumeration values that are not members (test_Token.py:20-21) and Mach numbers given
    as floats (test_Utils.py:45-49; the parser passes integers). *)
From Coq Require Import ZArith NArith List Bool String.
From Coq Require Import Floats.SpecFloat.
From Verif Require Import PyBase PyFloat Enums Tokenizer Utils.
Import List ListNotations.
Local Open Scope list_scope.
Local Open Scope Z_scope.

(** The texts returned by get_first_token and [k] times get_next_token. *)
Fixpoint next_texts (k : nat) (ts : tokens) : list (option pstr) :=
  match k with O => [] | S k => let '(ts', t) := get_next_token ts in option_map t_text t :: next_texts k ts' end.
Definition first_texts (k : nat) (ts : tokens) : list (option pstr) :=
  let '(ts', t) := get_first_token ts in option_map t_text t :: next_texts k ts'.
(** "\n", "\r" and "\t" in the literals below are written ~, ^ and _. *)
Definition unescape (s : pstr) : pstr :=
  map (fun c => if (c =? 126)%N then 10%N else if (c =? 94)%N then 13%N else if (c =? 95)%N then 9%N else c) s.
Definition some (l : list string) : list (option pstr) := map (fun s => Some (of_str s)) l.

(** test_Tokenize.py *)
Example tokenize_01 : get_number_of_tokens (tz_tokens new_tokenize) = 0.
Proof. vm_compute. reflexivity. Qed.
Example tokenize_02 :
  let z := tokenize (set_string_to_tokenize new_tokenize (unescape ($"Token1 Token2~Token3^Token4_Token5 ~ _ ^ Token6  ^^^    Token7"))) in
  get_number_of_tokens (tz_tokens z) = 7 /\
  first_texts 6 (tz_tokens z) = some ["Token1"; "Token2"; "Token3"; "Token4"; "Token5"; "Token6"; "Token7"]%string.
Proof. vm_compute. split; reflexivity. Qed.
Example tokenize_03 :
  let z := tokenize (set_whitespace (set_string_to_tokenize new_tokenize (unescape ($"T1 T2~T3^T4_T5 ~ _ ^ T6  ^^^    T7-T8 - T9"))) (unescape ($" ~_^-"))) in
  get_number_of_tokens (tz_tokens z) = 9 /\
  first_texts 8 (tz_tokens z) = some ["T1"; "T2"; "T3"; "T4"; "T5"; "T6"; "T7"; "T8"; "T9"]%string.
Proof. vm_compute. split; reflexivity. Qed.
Example tokenize_04 :
  let z := tokenize (set_string_to_tokenize new_tokenize (unescape ($"T1 T2~T3^T4_T5 ~ _ ^ T6  ^^^    T7-T8 - T9"))) in
  let z := tokenize (set_string_to_tokenize z ($"R1 R2 R3 R4 R5 R6 R7 R8")) in
  get_number_of_tokens (tz_tokens z) = 8 /\
  first_texts 7 (tz_tokens z) = some ["R1"; "R2"; "R3"; "R4"; "R5"; "R6"; "R7"; "R8"]%string.
Proof. vm_compute. split; reflexivity. Qed.

(** test_Tokens.py *)
Definition ten : tokens :=
  create_append_token
    (fold_left (fun ts p => append_token ts (new_token ($"Token " ++ of_str (fst p)) (snd p) (snd p)))
       [("1", 1); ("2", 2); ("3", 3); ("4", 4); ("5", 5); ("6", 6); ("7", 7); ("8", 8); ("9", 9)]%string new_tokens)
    ($"Token 10") 10 10.
Example tokens_01 : first_texts 9 ten =
  some ["Token 1"; "Token 2"; "Token 3"; "Token 4"; "Token 5"; "Token 6"; "Token 7"; "Token 8"; "Token 9"; "Token 10"]%string.
Proof. vm_compute. reflexivity. Qed.
Example tokens_02 : get_number_of_tokens ten = 10 /\ option_map t_text (nth_error (tk_list ten) 6) = Some ($"Token 7").
Proof. vm_compute. split; reflexivity. Qed.
Example tokens_03 :
  let '(a, t1) := get_first_token ten in
  let '(a, t2) := get_next_token a in
  let '(a, t3) := get_last_token a in
  let '(a, t4) := get_previous_token a in
  let '(a, t5) := get_previous_token a in
  let '(a, t6) := get_previous_token a in
  let '(a, t7) := get_previous_token a in
  let t8 := get_current_token a in
  let '(a, t9) := get_previous_token a in
  map (option_map t_text) [t1; t2; t3; t4; t5; t6; t7; t8; t9; peek_next_token a 2; peek_previous_token a 3] =
  some ["Token 1"; "Token 2"; "Token 10"; "Token 9"; "Token 8"; "Token 7"; "Token 6"; "Token 6"; "Token 5"; "Token 7"; "Token 2"]%string.
Proof. vm_compute. reflexivity. Qed.

(** test_Token.py *)
Example token_01 : let t := new_token ($"Test Token") 11 22 in (t_text t, t_start t, t_end t) = ($"Test Token", 11, 22).
Proof. reflexivity. Qed.

(** test_Utils.py *)
Example degrees : map (fun s => is_degree_semantics (of_str s) 90) ["0"; "89"; "90"; "91"]%string = [inr true; inr true; inr true; inr false].
Proof. vm_compute. reflexivity. Qed.
Example degrees_minutes_2 : map (fun s => is_degree_minute_semantics (of_str s) 90 2) ["0000"; "8900"; "9000"; "9100"; "8959"; "9001"]%string =
  [inr true; inr true; inr true; inr false; inr true; inr false].
Proof. vm_compute. reflexivity. Qed.
Example degrees_minutes_3 : map (fun s => is_degree_minute_semantics (of_str s) 180 3) ["00000"; "17900"; "18000"; "18100"; "17959"; "18001"]%string =
  [inr true; inr true; inr true; inr false; inr true; inr false].
Proof. vm_compute. reflexivity. Qed.
(** assertAlmostEqual(x, n / 10^5, places = p): the difference rounds to 0.000 or 0.0000. *)
Definition almost (x : exn + f64) (expected tolerance : Z * Z) : bool :=
  match x with
  | inr v => SFltb (SFabs (fadd v (SFopp (flit (fst expected) (snd expected))))) (flit (fst tolerance) (snd tolerance))
  | inl _ => false
  end.
Example speed_of_sound :
  almost (speed_of_sound_at_altitude 0) (340121, 1000) (5, 10000) &&
  almost (speed_of_sound_at_altitude 9000) (3039362, 10000) (5, 100000) &&
  almost (speed_of_sound_at_altitude 10000) (299646, 1000) (5, 10000) &&
  almost (speed_of_sound_at_altitude 11000) (2952936, 10000) (5, 100000) &&
  almost (speed_of_sound_at_altitude 12000) (2952936, 10000) (5, 100000) = true.
Proof. vm_compute. reflexivity. Qed.
Example mach : almost (mach_to_ms_speed 1 10000) (2996, 1000) (5, 10000) = true.
Proof. vm_compute. reflexivity. Qed.
