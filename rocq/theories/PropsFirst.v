(** * PropsFirst: C113 — how far the first speed and level reach. *)
From Coq Require Import ZArith NArith List Bool String.
From Verif Require Import PyBase PyFloat Enums ErrorTable Syntax Tokenizer Ers Utils Parser SpecNum SpecParser SpecGrammar SpecAccept SpecLayout SpecViable SpecRemoval SpecChange Removal Change PropsParser PropsRemoval.
Import List ListNotations.
Local Open Scope list_scope.
Local Open Scope nat_scope.

(** C113. The speed and level an accepted field starts with can be exchanged for any other speed and level.  The field is accepted, and the results differ
    in the speed and level of the record of the ADEP and of those after it, up to the record that the first change belongs to. *)
Theorem C113_first : forall (G : geodesic) (depth depth' : nat) (f : pstr) (s : st) t rest (w g : pstr),
  parse_field15 G depth f = Ok true s ->
  field_roles f = (t, ROut) :: rest -> t_base t = F15_SPEED_ALTITUDE -> fst (classify w) = F15_SPEED_ALTITUDE -> fl_ok (first_level w) ->
  element_texts g = w :: wordsof rest -> 3 * n_tokens g <= depth' + 1 ->
  exists s', parse_field15 G depth' g = Ok true s' /\ changed_first t rest (speed_part w) (first_level w) (s_ers s) (s_ers s').
Proof. exact first_changed. Qed.
Print Assumptions C113_first.

(** The first speed reaches the ADEP, ABC and UL9; the first change is at DEF. *)
Example C113_example :
  let f := $"N0450F350 ABC UL9 DEF/M080F370 GHI" in
  let g := $"K0830S1130 ABC UL9 DEF/M080F370 GHI" in
  says_ok f /\
  (exists t rest, field_roles f = (t, ROut) :: rest /\ t_base t = F15_SPEED_ALTITUDE /\ fst (classify ($"K0830S1130")) = F15_SPEED_ALTITUDE /\
     fl_ok (first_level ($"K0830S1130")) /\ element_texts g = $"K0830S1130" :: wordsof rest /\ reach 1 rest = 3) /\
  match parse_field15 flat 100 f, parse_field15 flat 100 g with
  | Ok _ s, Ok _ z =>
      map (fun r => (r_name r, r_speed r, r_alt r)) (e_recs (s_ers s)) = [($"ADEP", $"N0450", $"F350"); ($"ABC", $"N0450", $"F350"); ($"UL9", $"N0450", $"F350"); ($"DEF", $"M080", $"F370"); ($"GHI", $"M080", $"F370"); ($"ADES", [], [])] /\
      map (fun r => (r_name r, r_speed r, r_alt r)) (e_recs (s_ers z)) = [($"ADEP", $"K0830", $"S1130"); ($"ABC", $"K0830", $"S1130"); ($"UL9", $"K0830", $"S1130"); ($"DEF", $"M080", $"F370"); ($"GHI", $"M080", $"F370"); ($"ADES", [], [])]
  | _, _ => False
  end.
Proof.
  set (f := $"N0450F350 ABC UL9 DEF/M080F370 GHI"). cbv zeta.
  split; [eexists; vm_compute; reflexivity|]. split.
  - set (w := field_roles f). exists (fst (hd (dct_token, ROut) w)), (tl w). do 3 (split; [vm_compute; reflexivity|]). split; [vm_compute; discriminate|]. split; vm_compute; reflexivity.
  - vm_compute. split; reflexivity.
Qed.
