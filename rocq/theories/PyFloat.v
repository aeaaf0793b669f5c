(** * PyFloat: Python floats (IEEE-754 binary64, round to nearest even).

    Built on the standard library's executable specification [SpecFloat]; every
    operation is a plain Gallina function, so no axiom is involved. *)
From Coq Require Import ZArith NArith List Bool String.
From Coq Require Import Floats.SpecFloat.
From Verif Require Import PyBase.
Import ListNotations.
Open Scope Z_scope.

Definition f64 := spec_float.
Definition f64_prec : Z := 53.
Definition f64_emax : Z := 1024.

Definition fadd : f64 -> f64 -> f64 := SFadd f64_prec f64_emax.
Definition fsub : f64 -> f64 -> f64 := SFsub f64_prec f64_emax.
Definition fmul : f64 -> f64 -> f64 := SFmul f64_prec f64_emax.
Definition fdiv : f64 -> f64 -> f64 := SFdiv f64_prec f64_emax.
Definition fsqrt : f64 -> f64 := SFsqrt f64_prec f64_emax.
Definition fabs : f64 -> f64 := SFabs.
Definition f_of_Z (z : Z) : f64 := binary_normalize f64_prec f64_emax z 0 false.

(** A decimal literal [num/den]: both integers are exactly representable, so the
    correctly rounded quotient is the double nearest to the literal. *)
Definition flit (num den : Z) : f64 := fdiv (f_of_Z num) (f_of_Z den).

(** [int(f)]: truncation toward zero; NaN raises ValueError, infinities OverflowError. *)
Definition f_trunc (f : f64) : exn + Z :=
  match f with
  | S754_zero _ => inr 0
  | S754_finite s m e =>
      let a := if 0 <=? e then Zpos m * 2 ^ e else Zpos m / 2 ^ (- e) in
      inr (if s then - a else a)
  | S754_nan => inl ValueError
  | S754_infinity _ => inl OverflowError
  end.

(** [math.sqrt(f)]: ValueError on negative arguments (and -inf). *)
Definition py_sqrt (f : f64) : exn + f64 :=
  match f with
  | S754_finite true _ _ | S754_infinity true => inl ValueError
  | _ => inr (fsqrt f)
  end.

(** [float(s)] on a non-empty string of ASCII digits.  Simplification: every other
    argument is reported as ValueError although CPython also accepts signs,
    exponents, white space, "nan", ...; no modelled call passes such a string. *)
Definition py_float (s : pstr) : option f64 :=
  match s with
  | [] => None
  | _ => if forallb is_digit s then Some (f_of_Z (digits_val s)) else None
  end.

(** Round-half-even of the exact value of [f] times 100, as a natural. *)
Definition cents (m : positive) (e : Z) : Z :=
  if 0 <=? e then Zpos m * 100 * 2 ^ e
  else
    let d := 2 ^ (- e) in
    let q := (Zpos m * 100) / d in
    let r := (Zpos m * 100) mod d in
    if 2 * r <? d then q
    else if d <? 2 * r then q + 1
    else if Z.even q then q else q + 1.

Definition pad2 (z : Z) : pstr :=
  if z <? 10 then 48%N :: str_of_Z z else str_of_Z z.

(** ["{0:.2f}".format(f)]. *)
Definition fmt_2f (f : f64) : pstr :=
  let body z := str_of_Z (z / 100) ++ $"." ++ pad2 (z mod 100) in
  match f with
  | S754_zero s => (if s then $"-" else []) ++ body 0
  | S754_finite s m e => (if s then $"-" else []) ++ body (cents m e)
  | S754_infinity s => (if s then $"-" else []) ++ $"inf"
  | S754_nan => $"nan"
  end.

(** Values of the *_si fields: the class default is the float 0.0, every assignment
    stores an int. *)
Inductive pynum := PyZeroFloat | PyInt (z : Z).
Definition num_z (x : pynum) : Z := match x with PyZeroFloat => 0 | PyInt z => z end.
