(** * PropsReuse: C99 — parsing into a route sequence that has been used before. *)
From Coq Require Import ZArith NArith List Bool String.
From Verif Require Import PyBase PyFloat Enums ErrorTable Tokenizer Ers Utils Parser SpecParser SpecReader SpecComplete SpecReuse.
From Verif Require Import ErsFacts ParserFacts Reader ReaderFacts CompleteFacts Reuse ReuseFacts PropsParser.
Import List ListNotations.
Local Open Scope list_scope.
Local Open Scope Z_scope.

(** The machine of SpecReader started on the records and reports already there gives the whole result. *)
Theorem C99_complete : forall (G : geodesic) (depth : nat) (f : pstr) (x : ers) (k : nat) (b : bool) (s : st),
  used G x -> field_tokens f <> [] -> reparse G depth f x k = Ok b s ->
  exists e0 l e, e_errs x = map error_of e0 /\ reading_on (map item_of (e_recs x)) e0 (field_tokens f) = Some (Gives l e) /\
    b = (match e with [] => true | _ => false end) /\ s_ers s = ers_of G l e.
Proof. exact used_complete. Qed.
Print Assumptions C99_complete.

Theorem C99_total : forall (G : geodesic) (depth : nat) (f : pstr) (x : ers) (k : nat),
  used G x -> field_tokens f <> [] -> (3 * n_tokens f <= depth + 1)%nat -> exists e0, e_errs x = map error_of e0 /\
  match reading_on (map item_of (e_recs x)) e0 (field_tokens f) with
  | Some (Gives l e) => exists s, reparse G depth f x k = Ok (match e with [] => true | _ => false end) s /\ s_ers s = ers_of G l e
  | Some Raises => exists s, reparse G depth f x k = Exn ValueError s
  | None => False
  end.
Proof. exact used_total. Qed.
Print Assumptions C99_total.

(** A field without an element: ADES and the error for an empty field are appended, the letter stays. *)
Theorem C99_empty : forall (G : geodesic) (depth : nat) (f : pstr) (x : ers) (k : nat) (b : bool) (s : st),
  used G x -> field_tokens f = [] -> reparse G depth f x k = Ok b s ->
  b = false /\ s_ers s = mkErs (e_recs x ++ [dummy ($"ADES")]) (e_errs x ++ [empty_err]) (e_rules x).
Proof. exact empty_again. Qed.
Print Assumptions C99_empty.

(** A field that begins with speed/VFR, with speed/level and then DCT, a point or a STAR, or is speed/level T:
    its records but for ADEP and its errors are appended. *)
Theorem C99_alike : forall (G : geodesic) (d1 d2 : nat) (f : pstr) (x : ers) (k : nat) (b1 : bool) (s1 : st) (b : bool) (s : st),
  used G x -> alike (field_tokens f) = true -> parse_field15 G d1 f = Ok b1 s1 -> reparse G d2 f x k = Ok b s ->
  map item_of (e_recs (s_ers s)) = resumed (field_tokens f) (map item_of (e_recs x)) ++ tl (map item_of (e_recs (s_ers s1))) /\
  e_errs (s_ers s) = e_errs x ++ e_errs (s_ers s1) /\ (b = true <-> b1 = true /\ e_errs x = []).
Proof. exact reuse_alike. Qed.
Print Assumptions C99_alike.

(** So a field accepted on its own, and whose second element is no SID, is accepted after accepted ones. *)
Theorem C99_accepted : forall (G : geodesic) (d1 d2 : nat) (f : pstr) (x : ers) (k : nat) (s1 : st) (b : bool) (s : st),
  used G x -> e_errs x = [] -> field_tokens f <> [] -> sid_second (field_tokens f) = false ->
  parse_field15 G d1 f = Ok true s1 -> reparse G d2 f x k = Ok b s ->
  b = true /\ map item_of (e_recs (s_ers s)) = resumed (field_tokens f) (map item_of (e_recs x)) ++ tl (map item_of (e_recs (s_ers s1))).
Proof. exact reuse_accepted. Qed.
Print Assumptions C99_accepted.

(** A SID after the first speed and level is an error in every route but the first; a name that could be a SID or
    a STAR is taken for a STAR, which must come last. *)
Theorem C99_sid : forall (G : geodesic) (d0 : nat) (f0 : pstr) (x : ers) (k0 : nat) (b0 : bool) (s0 : st) (d : nat) (f : pstr) (k : nat) (b : bool) (s : st) (t u : token) (r : list token),
  used G x -> reparse G d0 f0 x k0 = Ok b0 s0 -> field_tokens f = t :: u :: r -> t_base t = F15_SPEED_ALTITUDE -> reparse G d f (s_ers s0) k = Ok b s ->
  (t_base u = F15_SID -> b = false /\ In (error_of (u, 30)) (e_errs (s_ers s))) /\
  (t_base u = F15_SID_STAR -> forall v r', r = v :: r' -> b = false /\ In (error_of (v, 34)) (e_errs (s_ers s))).
Proof. exact sid_again. Qed.
Print Assumptions C99_sid.

(** ** Examples *)
Definition first_use (f : string) : ers := s_ers (final (parse_field15 flat 100 (of_str f))).
Definition second_use (f1 f2 : string) : out bool := reparse flat 100 (of_str f2) (first_use f1) 0.
Definition is_ok (o : out bool) : option bool := match o with Ok b _ => Some b | Exn _ _ => None end.
Definition told (o : out bool) : option bool * list (pstr * pstr) * list pstr :=
  (is_ok o, map (fun r => (r_name r, r_speed r)) (e_recs (s_ers (final o))), map r_err (e_errs (s_ers (final o)))).
Lemma first_used (f : string) b s : parse_field15 flat 100 (of_str f) = Ok b s -> used flat (first_use f).
Proof. intro H. unfold first_use. rewrite H. exact (used_again flat 100 (of_str f) new_ers 0 b s (used_new flat) H). Qed.
Definition one : string := "N0450F350 AAA". 
Definition two_points : string := "N0400F300 BBB DCT CCC".
Definition with_sid : string := "N0400F300 ABC1D PNT UL9 XYZ".
Definition with_route : string := "N0400F300 UL9 XYZ".
Example used_once : used flat (first_use one).
Proof. eapply first_used. vm_compute. reflexivity. Qed.
Example alike_example :
  alike (field_tokens (of_str two_points)) = true /\ is_ok (parse_field15 flat 100 (of_str two_points)) = Some true /\ e_errs (first_use one) = [] /\
  told (second_use one two_points) =
    (Some true, [($"ADEP", $"N0450"); ($"AAA", $"N0450"); ($"ADES", $"N0400"); ($"BBB", $"N0400"); ($"DCT", $"N0400"); ($"CCC", $"N0400"); ($"ADES", $"")], []).
Proof. split; [vm_compute; reflexivity|]. split; [vm_compute; reflexivity|]. split; vm_compute; reflexivity. Qed.
Example sid_example : sid_second (field_tokens (of_str with_sid)) = true /\ is_ok (parse_field15 flat 100 (of_str with_sid)) = Some true /\
  told (second_use one with_sid) =
    (Some false, [($"ADEP", $"N0450"); ($"AAA", $"N0450"); ($"ADES", $"N0400"); ($"ABC1D", $"N0400"); ($"PNT", $"N0400"); ($"UL9", $"N0400"); ($"XYZ", $"N0400"); ($"ADES", $"")],
     [$"A STAR must be the last element in field 15 and cannot be followed with 'PNT'"]).
Proof. split; [vm_compute; reflexivity|]. split; vm_compute; reflexivity. Qed.
Example empty_example : told (second_use one "") = (Some false, [($"ADEP", $"N0450"); ($"AAA", $"N0450"); ($"ADES", $""); ($"ADES", $"")], [$"Field 15 is empty"]).
Proof. vm_compute. reflexivity. Qed.

(** Neither way is acceptance into a sequence without errors the same as acceptance on its own. *)
Theorem C99_same_answer_refuted :
  (exists (G : geodesic) (x : ers) (d : nat) (f : pstr) (s1 s : st), used G x /\ e_errs x = [] /\ parse_field15 G d f = Ok true s1 /\ reparse G d f x 0 = Ok false s) /\
  (exists (G : geodesic) (x : ers) (d : nat) (f : pstr) (s1 s : st), used G x /\ e_errs x = [] /\ parse_field15 G d f = Ok false s1 /\ reparse G d f x 0 = Ok true s).
Proof.
  split.
  - exists flat, (first_use one), 100%nat, (of_str with_sid). eexists. eexists. split; [exact used_once|]. split; [vm_compute; reflexivity|]. split; vm_compute; reflexivity.
  - exists flat, (first_use one), 100%nat, (of_str with_route). eexists. eexists. split; [exact used_once|]. split; [vm_compute; reflexivity|]. split; vm_compute; reflexivity.
Qed.
Print Assumptions C99_same_answer_refuted.
