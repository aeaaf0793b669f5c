(** * Setters: the setters of ExtractedRouteRecord and Token that the parser does not use, and calls of setters one after the other. *)
From Coq Require Import ZArith NArith List Bool String.
From Coq Require Import Floats.SpecFloat.
From Verif Require Import PyBase PyFloat Enums Tokenizer Ers.
Import ListNotations.
Open Scope Z_scope.

(** set_start_index: ExtractedRouteRecord.py:448-455 *)
Definition set_r_start (v : Z) (r : rrec) : rrec :=
  mkR (r_name r) v (r_end r) (r_base r) (r_sub r) (r_alt r) (r_alt_si r) (r_speed r) (r_speed_si r) (r_break r) (r_rules r) (r_err r) (r_stay r) (r_cto r) (r_cto_si r) (r_lat r) (r_lon r) (r_brg r) (r_dist r) (r_llv r).
(** set_end_index: ExtractedRouteRecord.py:365-372 *)
Definition set_r_end (v : Z) (r : rrec) : rrec :=
  mkR (r_name r) (r_start r) v (r_base r) (r_sub r) (r_alt r) (r_alt_si r) (r_speed r) (r_speed_si r) (r_break r) (r_rules r) (r_err r) (r_stay r) (r_cto r) (r_cto_si r) (r_lat r) (r_lon r) (r_brg r) (r_dist r) (r_llv r).

(** The calls that change a record: ExtractedRouteRecord.py:100-124, 287-476.  Simplification: the values are of the types that the
    documentation of the class gives; the SI values are integers or the initial 0.0. *)
Inductive rcall :=
| SetName (v : pstr)  (* :420-427 *)
| SetStart (v : Z)  (* :448-455 *)
| SetEnd (v : Z)  (* :365-372 *)
| SetBase (v : base_type)  (* :326-334 *)
| SetSub (v : sub_type)  (* :468-476 *)
| SetAltitude (v : pstr)  (* :287-294 *)
| SetAltitudeSi (v : pynum)  (* :317-324 *)
| SetSpeed (v : pstr)  (* :430-437 *)
| SetSpeedSi (v : pynum)  (* :439-446 *)
| SetRules (v : pstr)  (* :384-390 *)
| SetCruiseTo (v : pstr)  (* :297-304 *)
| SetCruiseToSi (v : pynum)  (* :307-315 *)
| SetLatitude (v : f64)  (* :392-399 *)
| SetLongitude (v : f64)  (* :411-418 *)
| SetBearing (v : f64)  (* :336-343 *)
| SetDistance (v : f64)  (* :356-363 *)
| SetLatLongValid (v : bool)  (* :401-408 *)
| SetBreak (v : pstr)  (* :345-354 *)
| AppendBreak (v : pstr)  (* :100-113 *)
| SetError (v : pstr)  (* :375-381 *)
| AppendError (v : pstr)  (* :115-124 *)
| SetStay (v : pstr).  (* :459-466; int() may raise *)
Definition call_record (c : rcall) (r : rrec) : exn + rrec :=
  match c with
  | SetName v => inr (set_r_name v r)
  | SetStart v => inr (set_r_start v r)
  | SetEnd v => inr (set_r_end v r)
  | SetBase v => inr (set_r_base v r)
  | SetSub v => inr (set_r_sub v r)
  | SetAltitude v => inr (set_r_alt v r)
  | SetAltitudeSi v => inr (set_r_alt_si v r)
  | SetSpeed v => inr (set_r_speed v r)
  | SetSpeedSi v => inr (set_r_speed_si v r)
  | SetRules v => inr (set_r_rules v r)
  | SetCruiseTo v => inr (set_r_cto v r)
  | SetCruiseToSi v => inr (set_r_cto_si v r)
  | SetLatitude v => inr (set_r_lat v r)
  | SetLongitude v => inr (set_r_lon v r)
  | SetBearing v => inr (set_r_brg v r)
  | SetDistance v => inr (set_r_dist v r)
  | SetLatLongValid v => inr (set_r_llv v r)
  | SetBreak v => inr (set_r_break v r)
  | AppendBreak v => inr (append_break_text v r)
  | SetError v => inr (set_r_err v r)
  | AppendError v => inr (append_error_text v r)
  | SetStay v => set_stay_time v r
  end.
(** A call that raises, the exception caught by the caller, leaves the record as it is: ExtractedRouteRecord.py:466 assigns last. *)
Definition after_call (r : rrec) (c : rcall) : rrec := match call_record c r with inr r' => r' | inl _ => r end.
Definition after_calls (cs : list rcall) (r : rrec) : rrec := fold_left after_call cs r.

(** The calls that change a token: Token.py:51-133. *)
Inductive tcall :=
| SetText (v : pstr)  (* :51-57 *)
| SetTStart (v : Z)  (* :66-74 *)
| SetTEnd (v : Z)  (* :86-94 *)
| SetTBase (v : base_type)  (* :103-109 *)
| SetTSub (v : sub_type).  (* :119-125 *)
Definition call_token (t : token) (c : tcall) : token :=
  match c with
  | SetText v => set_token_string t v
  | SetTStart v => mkToken (t_text t) v (t_end t) (t_base t) (t_sub t)
  | SetTEnd v => mkToken (t_text t) (t_start t) v (t_base t) (t_sub t)
  | SetTBase v => set_token_types t v (t_sub t)
  | SetTSub v => set_token_types t (t_base t) v
  end.
Definition token_after (cs : list tcall) (t : token) : token := fold_left call_token cs t.

(** The calls that change a sequence: ExtractedRouteSequence.py:30-76, 105-120, 196-203. *)
Inductive scall :=
| AppendElement (r : rrec)  (* :69-76 *)
| CreateAppend (text : pstr) (s e : Z) (b : base_type) (sb : sub_type)  (* :105-120 *)
| AddAdes  (* :39-45 *)
| AddError (text : pstr) (s e : Z) (b : base_type) (sb : sub_type) (msg : pstr)  (* :48-67 *)
| SetDerived (v : pstr).  (* :196-203 *)
Definition call_sequence (x : ers) (c : scall) : ers :=
  match c with
  | AppendElement r => append_element r x
  | CreateAppend text s e b sb => append_element (new_rec text s e b sb) x
  | AddAdes => append_element (dummy ($"ADES")) x
  | AddError text s e b sb msg => add_error text s e b sb msg x
  | SetDerived v => mkErs (e_recs x) (e_errs x) v
  end.
Definition sequence_after (cs : list scall) : ers := fold_left call_sequence cs new_ers.
