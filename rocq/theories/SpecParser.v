(** * SpecParser: vocabulary for statements about parsed fields. *)
From Coq Require Import ZArith NArith List Bool String.
From Coq Require Import Floats.SpecFloat.
From Verif Require Import PyBase PyFloat Enums ErrorTable Tokenizer Ers Utils Parser SpecNum.
Import List ListNotations.
Local Open Scope list_scope.
Local Open Scope Z_scope.

(** The token list of a field with every token typed by its text. *)
Definition typed (t : token) : token := mkToken (t_text t) (t_start t) (t_end t) (fst (classify (t_text t))) (snd (classify (t_text t))).
Definition field_tokens (field : pstr) : list token := map typed (tk_list (tokenize_string f15_whitespace field)).
Definition n_tokens (field : pstr) : nat := List.length (tk_list (tokenize_string f15_whitespace field)).

(** A blank separator: space, newline, tab, carriage return. *)
Definition blank (c : N) : Prop := c = 32%N \/ c = 10%N \/ c = 9%N \/ c = 13%N.

(** The message with every '!' replaced by the element text. *)
Fixpoint fill (text m : pstr) : pstr :=
  match m with
  | [] => []
  | c :: r => if N.eqb c 33 then text ++ fill text r else c :: fill text r
  end.

(** Error record [e] reports message number [m] for token [t]. *)
Definition reports (t : token) (m : Z) (e : rrec) : Prop :=
  r_name e = t_text t /\ r_start e = t_start t /\ r_end e = t_end t /\ r_base e = t_base t /\ r_sub e = t_sub t /\
  exists tmpl, error_message m = Some tmpl /\ r_err e = fill (t_text t) tmpl.

(** Record [r] stands for token [t]. *)
Definition stands_for (t : token) (r : rrec) : Prop :=
  r_start r = t_start t /\ r_end r = t_end t /\
  (r_name r = t_text t \/ (t_base t = F15_SPEED_VFR /\ r_name r = $"VFR")) /\
  ((r_base r, r_sub r) = (t_base t, t_sub t) \/
   (In (t_base t) [F15_SID; F15_STAR; F15_SID_STAR] /\
    In (r_base r, r_sub r) [(F15_SID, F15_SB_SID); (F15_SID, F15_SB_SID_LITERAL); (F15_STAR, F15_SB_STAR); (F15_STAR, F15_SB_STAR_LITERAL)])).

(** A place-holder aerodrome record. *)
Definition aerodrome (name : pstr) (r : rrec) : Prop :=
  r_name r = name /\ r_start r = 0 /\ r_end r = 0 /\ r_base r = F15_POINT /\ r_sub r = F15_SB_PRP_AERO.

(** The five possible flight rules of a record. *)
Definition some_flight_rules (r : rrec) : Prop :=
  In (r_rules r) [[]; $"IFR"; $"VFR"; $"OAT"; $"IFPS"].

(** SI values agree with the strings. *)
Definition no_performance (r : rrec) : Prop :=
  r_alt r = [] /\ r_alt_si r = PyZeroFloat /\ r_speed r = [] /\ r_speed_si r = PyZeroFloat.
Definition si_agrees (r : rrec) : Prop :=
  exists c ds u es, r_alt r = c :: ds /\ In c [70; 65; 83; 77]%N /\ all_digits ds /\ zlen ds = (if is_feet c then 3 else 4) /\
    r_speed r = u :: es /\ In u [75; 78; 77]%N /\ all_digits es /\ zlen es = (if N.eqb u 77 then 3 else 4) /\
    exists a v, r_alt_si r = PyInt a /\ r_speed_si r = PyInt v /\
      (if is_feet c then rounds_to (decimal ds * 100 * 3048) 10000 a else a = decimal ds * 10) /\
      (if N.eqb u 75 then rounds_to (decimal es * 2777778) 10000000 v
       else if N.eqb u 78 then rounds_to (decimal es * 514444) 1000000 v
       else exists f, mach_to_ms_speed (decimal es) a = inr f /\ f_trunc (fadd f (flit 1 2)) = inr v).

(** Texts of cruise-climb elements that make the parser raise: N dddd A dddd (S|M) dddd. *)
Definition raising_text (s : pstr) : Prop :=
  exists a b c x, s = 78%N :: a ++ 65%N :: b ++ x :: c /\ (x = 83%N \/ x = 77%N) /\
    all_digits a /\ all_digits b /\ all_digits c /\ zlen a = 4 /\ zlen b = 4 /\ zlen c = 4.

(** The run raises exception [e]. *)
Definition raises (o : out bool) (e : exn) : Prop := match o with Exn e' _ => e' = e | Ok _ _ => False end.
(** The run returns. *)
Definition returns (o : out bool) : Prop := match o with Ok _ _ => True | Exn _ _ => False end.
(** The state left by a run. *)
Definition final (o : out bool) : st := match o with Ok _ s | Exn _ s => s end.

(** What a token is apart from its types. *)
Definition skin (t : token) : pstr * Z * Z := (t_text t, t_start t, t_end t).
