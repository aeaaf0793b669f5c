(** * SpecPrint: where the values are on the console. *)
From Coq Require Import ZArith NArith List Bool String.
From Coq Require Import Floats.SpecFloat.
From Verif Require Import PyBase PyFloat Enums Tokenizer Ers Utils SpecNum SpecText SpecParser.
Import List ListNotations.
Local Open Scope list_scope.
Local Open Scope Z_scope.

(** Between the columns [a] and [b] of [line] there is the text [v], at the right or at the left, and blanks. *)
Definition at_right (line : pstr) (a b : Z) (v : pstr) : Prop :=
  exists k : nat, slice line (Some a) (Some b) = repeat 32%N k ++ v /\ Z.of_nat k + zlen v = b - a.
Definition at_left (line : pstr) (a b : Z) (v : pstr) : Prop :=
  exists k : nat, slice line (Some a) (Some b) = v ++ repeat 32%N k /\ Z.of_nat k + zlen v = b - a.

(** The text of a speed or level in SI units. *)
Definition plain_si (x : pynum) (v : pstr) : Prop :=
  match x with PyZeroFloat => v = $"0.0" | PyInt z => integer_text z v end.
Definition shows {A} (written : A -> pstr -> Prop) (x : A) (line : pstr) (a b : Z) : Prop :=
  exists v, written x v /\ at_right line a b v.

(** The printed line of a record has each value in its column; [text] is the last one, at least 91 wide. *)
Definition record_line (r : rrec) (text line : pstr) : Prop :=
  at_left line 0 17 (r_name r) /\
  shows integer_text (r_start r) line 17 23 /\ shows integer_text (r_end r) line 23 29 /\
  shows integer_text (base_code (r_base r)) line 29 34 /\ shows integer_text (sub_code (r_sub r)) line 34 39 /\
  at_right line 39 45 (r_speed r) /\ shows plain_si (r_speed_si r) line 45 51 /\
  at_right line 51 57 (r_alt r) /\ shows plain_si (r_alt_si r) line 57 63 /\
  shows float_written (r_brg r) line 63 70 /\ shows float_written (r_dist r) line 70 81 /\
  at_right line 81 87 (r_rules r) /\ shows integer_text (r_stay r) line 87 92 /\
  at_right line 92 99 (r_cto r) /\ shows plain_si (r_cto_si r) line 99 106 /\
  shows float_written (r_lat r) line 106 113 /\ shows float_written (r_lon r) line 113 121 /\
  slice line (Some 121) (Some 122) = [32%N] /\
  exists k : nat, slice line (Some 122) None = text ++ repeat 32%N k /\ Z.of_nat k + zlen text = Z.max 91 (zlen text).

(** The printed line of a token. *)
Definition token_printed (t : token) (line : pstr) : Prop :=
  zlen line = 30 /\ at_right line 0 9 (t_text t) /\
  shows integer_text (t_start t) line 9 15 /\ shows integer_text (t_end t) line 15 20 /\
  shows integer_text (base_code (t_base t)) line 20 25 /\ shows integer_text (sub_code (t_sub t)) line 25 30.

(** The absolute value of [f] is at most [k]; or [f] is not a number. *)
Definition at_most (k : Z) (f : f64) : Prop :=
  match f with
  | S754_zero _ | S754_nan => True
  | S754_finite _ m e => Zpos m * 2 ^ Z.max e 0 <= k * 2 ^ Z.max (- e) 0
  | S754_infinity _ => False
  end.
Definition not_negative (f : f64) : Prop := match f with S754_zero s | S754_finite s _ _ => s = false | _ => True end.
(** A library whose latitudes, longitudes and azimuths have at most three digits before the point and whose distances
    are not negative and less than a hundred million metres. *)
Definition sane (G : geodesic) : Prop :=
  (forall la lo b d, at_most 999 (fst (geo_direct G la lo b d)) /\ at_most 999 (snd (geo_direct G la lo b d))) /\
  (forall la lo lb lp, at_most 999 (fst (geo_inverse G la lo lb lp)) /\
     at_most 99999999 (snd (geo_inverse G la lo lb lp)) /\ not_negative (snd (geo_inverse G la lo lb lp))).

(** The lines of a text, without the newlines that end them. *)
Fixpoint lines_from (cur : pstr) (s : pstr) : list pstr :=
  match s with
  | [] => match cur with [] => [] | _ => [cur] end
  | c :: r => if N.eqb c 10 then cur :: lines_from [] r else lines_from (cur ++ [c]) r
  end.
Definition lines (s : pstr) : list pstr := lines_from [] s.

(** The two lines of titles over the records; [last] is the title of the last column. *)
Definition titles_1 : pstr := $"                  Start  End  Base Sub-         SI          SI                          Stay Cruise Cruise".
Definition titles_2 (last : pstr) : pstr :=
  $"Name              Index Index Type Type Speed Speed  Alt.  Alt. Bearing  Distance Rules Time     To  To SI   Lat.    Long " ++ last ++ $"     ".
(** The lines printed for a result: the number of records and a line for each of them, an empty line, the number of
    errors and, if there are any, a line for each of them. *)
Definition printed_report (x : ers) (ls : list pstr) : Prop :=
  exists n m rs es, integer_text (zlen (e_recs x)) n /\ integer_text (zlen (e_errs x)) m /\
    Forall2 (fun r line => zlen (r_name r) <= 17 -> record_line r (r_break r) line) (e_recs x) rs /\
    Forall2 (fun e line => zlen (r_name e) <= 17 -> record_line e (r_err e) line) (e_errs x) es /\
    ls = ($"Total Number of Extracted Route Records: " ++ n) :: titles_1 :: titles_2 ($"Break Text") :: rs ++
         [] :: ($"Total Number of Errors: " ++ m) ::
         match es with [] => [] | _ => titles_1 :: titles_2 ($"Error Text") :: es end.

Definition token_titles_1 : pstr := $"          Start  End  Base Sub-".
Definition token_titles_2 : pstr := $"     Name Index Index Type Type".
Definition printed_tokens (ts : list token) (ls : list pstr) : Prop :=
  exists n rs, integer_text (zlen ts) n /\
    Forall2 (fun t line => zlen (t_text t) <= 9 -> token_printed t line) ts rs /\
    ls = ($"Total Number of Tokens: " ++ n) :: token_titles_1 :: token_titles_2 :: rs.
