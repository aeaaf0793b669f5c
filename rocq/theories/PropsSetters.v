(** * PropsSetters: C94 — records and tokens return what was last set. *)
From Coq Require Import ZArith NArith List Bool String.
From Coq Require Import Floats.SpecFloat.
From Verif Require Import PyBase PyFloat Enums Tokenizer Ers Setters SpecAccept SpecNum SpecSetters SettersFacts IntText.
Import ListNotations.
Open Scope Z_scope.

(** C94. After any calls of setters in any order, every attribute of a record has the value last given for it, or the one it had;
    the two texts that can be appended to are those said since they were last set. *)
Theorem C94_record : forall (cs : list rcall) (r : rrec),
  r_name (after_calls cs r) = latest given_Name cs (r_name r) /\
  r_start (after_calls cs r) = latest given_Start cs (r_start r) /\
  r_end (after_calls cs r) = latest given_End cs (r_end r) /\
  r_base (after_calls cs r) = latest given_Base cs (r_base r) /\
  r_sub (after_calls cs r) = latest given_Sub cs (r_sub r) /\
  r_alt (after_calls cs r) = latest given_Altitude cs (r_alt r) /\
  r_alt_si (after_calls cs r) = latest given_AltitudeSi cs (r_alt_si r) /\
  r_speed (after_calls cs r) = latest given_Speed cs (r_speed r) /\
  r_speed_si (after_calls cs r) = latest given_SpeedSi cs (r_speed_si r) /\
  r_rules (after_calls cs r) = latest given_Rules cs (r_rules r) /\
  r_cto (after_calls cs r) = latest given_CruiseTo cs (r_cto r) /\
  r_cto_si (after_calls cs r) = latest given_CruiseToSi cs (r_cto_si r) /\
  r_lat (after_calls cs r) = latest given_Latitude cs (r_lat r) /\
  r_lon (after_calls cs r) = latest given_Longitude cs (r_lon r) /\
  r_brg (after_calls cs r) = latest given_Bearing cs (r_brg r) /\
  r_dist (after_calls cs r) = latest given_Distance cs (r_dist r) /\
  r_llv (after_calls cs r) = latest given_LatLongValid cs (r_llv r) /\
  r_stay (after_calls cs r) = latest given_Stay cs (r_stay r) /\
  r_break (after_calls cs r) = spoken said_break cs (r_break r) /\
  r_err (after_calls cs r) = spoken said_error cs (r_err r).
Proof. exact record_history. Qed.
Print Assumptions C94_record.
Theorem C94_token : forall (cs : list tcall) (t : token),
  t_text (token_after cs t) = latest given_Text cs (t_text t) /\
  t_start (token_after cs t) = latest given_TStart cs (t_start t) /\
  t_end (token_after cs t) = latest given_TEnd cs (t_end t) /\
  t_base (token_after cs t) = latest given_TBase cs (t_base t) /\
  t_sub (token_after cs t) = latest given_TSub cs (t_sub t).
Proof. exact token_history. Qed.
Print Assumptions C94_token.
(** A sequence holds ADEP and the records appended, in the order of the calls, and the errors added, in the order of the calls;
    neither disturbs the other. *)
Theorem C94_sequence : forall cs : list scall,
  e_recs (sequence_after cs) = new_rec ($"ADEP") 0 0 F15_POINT F15_SB_PRP_AERO :: flat_map recorded cs /\
  e_errs (sequence_after cs) = flat_map reported cs /\
  e_rules (sequence_after cs) = latest given_Derived cs [] /\
  get_number_of_elements (sequence_after cs) = 1 + zlen (flat_map recorded cs) /\ get_number_of_errors (sequence_after cs) = zlen (flat_map reported cs).
Proof. exact sequence_history. Qed.
Print Assumptions C94_sequence.
(** A stay is set by exactly the texts of which the first two characters and the rest are numbers; any other text leaves the stay alone. *)
Theorem C94_stay : forall (r : rrec) (v : pstr) (z : Z),
  (stay_text v z -> r_stay (after_calls [SetStay v] r) = z) /\
  ((forall z, ~ stay_text v z) -> r_stay (after_calls [SetStay v] r) = r_stay r).
Proof. exact stay_kept. Qed.
Print Assumptions C94_stay.
Theorem C94_numeral : forall (s : pstr) (z : Z), py_int s = Some z <-> int_text s z.
Proof. exact int_iff. Qed.
Print Assumptions C94_numeral.
Example C94_stay_example : stay_text ($"0130") 90 /\ stay_text ($"+1 -1_5 ") 45 /\ (forall z, ~ int_text ($"1__0") z) /\ forall z, ~ stay_text ($"01") z.
Proof.
  assert (X : forall s z, py_int s = Some z -> int_text s z) by (intros; now apply int_iff).
  split; [exists 1, 30; repeat split; apply X; vm_compute; reflexivity|]. split; [exists 1, (-15); repeat split; apply X; vm_compute; reflexivity|].
  split; [intros z H|intros z (h & m & _ & H & _)]; apply int_iff in H; vm_compute in H; discriminate.
Qed.
(** A history with values given twice, a text that is no stay, and texts appended and set. *)
Example C94_example :
  let r := after_calls [SetName ($"ABC"); AppendBreak ($"x"); SetStay ($"0130"); SetStay ($"AB12"); AppendBreak ($"y"); SetName ($"DEF"); SetError ($"a"); AppendError ($"b"); SetError ($"c"); SetEnd 7]
    (new_rec ($"X") 1 2 F15_POINT F15_SB_PRP) in
  r_name r = $"DEF" /\ r_break r = $"x y" /\ r_stay r = 90 /\ r_err r = $"c" /\ r_start r = 1 /\ r_end r = 7 /\
  token_after [SetTBase F15_DCT; SetText ($"DCT"); SetTBase F15_C; SetTStart 4] (new_token ($"X") 1 2) = mkToken ($"DCT") 4 2 F15_C F15_SB_UNKNOWN.
Proof. repeat split; vm_compute; reflexivity. Qed.
Example C94_sequence_example :
  let x := sequence_after [CreateAppend ($"ABC") 3 6 F15_POINT F15_SB_PRP; AddError ($"DEF") 7 10 F15_POINT F15_SB_PRP ($"bad !"); AddAdes; SetDerived ($"I")] in
  map r_name (e_recs x) = [$"ADEP"; $"ABC"; $"ADES"] /\ map r_err (e_errs x) = [$"bad DEF"] /\ e_rules x = $"I".
Proof. repeat split; vm_compute; reflexivity. Qed.
