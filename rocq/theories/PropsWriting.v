(** * PropsWriting: the same coordinates in another notation (C86). *)
From Coq Require Import ZArith NArith List Bool String.
From Verif Require Import PyBase Enums Tokenizer Ers Utils Parser SpecParser SpecRename SpecFlow SpecWriting Writing PropsParser PropsLegs.
Import List ListNotations.
Local Open Scope list_scope.
Local Open Scope nat_scope.

(** C86. Degrees may be given with zero minutes: 52N008W and 5200N00800W, with or without bearing and distance after them.  The same
    return value, records with the same values, coordinates and legs, errors about the elements at the same places, rules; accepted or not. *)
Theorem C86_notation : forall (G : geodesic) (depth : nat) (f g : pstr),
  same_but_writing f g -> field_tokens f <> [] -> 3 * n_tokens f <= depth + 1 ->
  match parse_field15 G depth f, parse_field15 G depth g with
  | Ok a s, Ok b z =>
      a = b /\ Forall2 (written_otherwise (opposite f g)) (e_recs (s_ers s)) (e_recs (s_ers z)) /\
      Forall2 (same_report (opposite f g)) (e_errs (s_ers s)) (e_errs (s_ers z)) /\ e_rules (s_ers s) = e_rules (s_ers z)
  | Exn x _, Exn y _ => x = y
  | _, _ => False
  end.
Proof. exact writing. Qed.
Print Assumptions C86_notation.

Definition short_form : pstr := $"N0450F350 01N002E DCT 10S170W180020/M080F330 ?! C/00S000W/M080F330F350 5530N02030W VFR 77N001E".
Definition long_form : pstr := $"N0450F350 0100N00200E DCT 1000S17000W180020/M080F330 ?! C/0000S00000W/M080F330F350 5530N02030W VFR 7700N00100E".
Example C86_example : same_but_writing short_form long_form /\ field_tokens short_form <> [] /\ 3 * n_tokens short_form <= 70 + 1 /\
  match parse_field15 second 70 short_form, parse_field15 second 70 long_form with
  | Ok a s, Ok b z => a = false /\ b = false /\ map r_lat (e_recs (s_ers s)) = map r_lat (e_recs (s_ers z)) /\
      map r_dist (e_recs (s_ers s)) = map r_dist (e_recs (s_ers z)) /\ map r_name (e_recs (s_ers s)) <> map r_name (e_recs (s_ers z)) /\
      length (filter r_llv (e_recs (s_ers s))) = 4
  | _, _ => False
  end.
Proof.
  split; [apply same_but_writing_test; vm_compute; reflexivity|]. split; [vm_compute; discriminate|]. split; [apply Nat.leb_le; vm_compute; reflexivity|].
  vm_compute. repeat split; discriminate.
Qed.

(** The degrees must be in order: else there is an error in both cases, but not the same message. *)
Theorem C86_in_order : exists (G : geodesic) (depth : nat) (f g : pstr),
  f = $"N0450F350 91N000E" /\ g = $"N0450F350 9100N00000E" /\
  match parse_field15 G depth f, parse_field15 G depth g with
  | Ok _ s, Ok _ z => map r_err (e_errs (s_ers s)) = [$"Latitude degree value must be 0 to 90 instead of '91N000E'"] /\
      map r_err (e_errs (s_ers z)) = [$"Latitude degree/minute value must be 0 to 9000 with minutes < 60 instead of '9100N00000E'"]
  | _, _ => False
  end.
Proof. exists flat, 40, ($"N0450F350 91N000E"), ($"N0450F350 9100N00000E"). vm_compute. repeat split. Qed.
Print Assumptions C86_in_order.
