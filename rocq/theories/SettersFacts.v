(** * SettersFacts: histories of calls of setters. *)
From Coq Require Import ZArith NArith List Bool String Lia.
From Coq Require Import Floats.SpecFloat.
From Verif Require Import PyBase PyFloat Enums Tokenizer Ers Setters SpecAccept SpecSetters.
Import ListNotations.
Open Scope Z_scope.

Lemma latest_fold {A C R} (step : R -> C -> R) (get : R -> A) (given : C -> option A) :
  (forall r c, get (step r c) = or_else (given c) (get r)) -> forall cs r, get (fold_left step cs r) = latest given cs (get r).
Proof.
  intro H. unfold latest. induction cs as [|c cs IH]; intro r; [reflexivity|]. cbn [fold_left last_some]. rewrite IH, H. destruct (last_some given cs); reflexivity.
Qed.
Lemma spoken_fold (get : rrec -> pstr) (f : rcall -> said) : (forall r c, get (after_call r c) = heard (get r) (f c)) ->
  forall cs r, get (after_calls cs r) = spoken f cs (get r).
Proof. intro H. unfold spoken, after_calls. induction cs as [|c cs IH]; intro r; [reflexivity|]. cbn [fold_left map]. rewrite IH, H. reflexivity. Qed.
Ltac one_call := let r := fresh in let c := fresh in intros r c; destruct r, c; try reflexivity; unfold after_call; cbn [call_record]; unfold append_break_text, append_error_text, set_stay_time, given_Stay, heard, said_break, said_error; cbn [r_name r_start r_end r_base r_sub r_alt r_alt_si r_speed r_speed_si r_break r_rules r_err r_stay r_cto r_cto_si r_lat r_lon r_brg r_dist r_llv];
  repeat match goal with
         | |- context [pstr_eqb ?b []] => destruct b; cbn [pstr_eqb]
         | |- context [match py_int ?x with _ => _ end] => destruct (py_int x)
         end; try reflexivity.
Theorem record_history cs r :
  r_name (after_calls cs r) = latest given_Name cs (r_name r) /\
  r_start (after_calls cs r) = latest given_Start cs (r_start r) /\
  r_end (after_calls cs r) = latest given_End cs (r_end r) /\
  r_base (after_calls cs r) = latest given_Base cs (r_base r) /\
  r_sub (after_calls cs r) = latest given_Sub cs (r_sub r) /\
  r_alt (after_calls cs r) = latest given_Altitude cs (r_alt r) /\
  r_alt_si (after_calls cs r) = latest given_AltitudeSi cs (r_alt_si r) /\
  r_speed (after_calls cs r) = latest given_Speed cs (r_speed r) /\
  r_speed_si (after_calls cs r) = latest given_SpeedSi cs (r_speed_si r) /\
  r_rules (after_calls cs r) = latest given_Rules cs (r_rules r) /\
  r_cto (after_calls cs r) = latest given_CruiseTo cs (r_cto r) /\
  r_cto_si (after_calls cs r) = latest given_CruiseToSi cs (r_cto_si r) /\
  r_lat (after_calls cs r) = latest given_Latitude cs (r_lat r) /\
  r_lon (after_calls cs r) = latest given_Longitude cs (r_lon r) /\
  r_brg (after_calls cs r) = latest given_Bearing cs (r_brg r) /\
  r_dist (after_calls cs r) = latest given_Distance cs (r_dist r) /\
  r_llv (after_calls cs r) = latest given_LatLongValid cs (r_llv r) /\
  r_stay (after_calls cs r) = latest given_Stay cs (r_stay r) /\
  r_break (after_calls cs r) = spoken said_break cs (r_break r) /\
  r_err (after_calls cs r) = spoken said_error cs (r_err r).
Proof.
  repeat apply conj; try (apply (latest_fold after_call); one_call); apply spoken_fold; one_call.
Qed.
Theorem token_history cs t :
  t_text (token_after cs t) = latest given_Text cs (t_text t) /\
  t_start (token_after cs t) = latest given_TStart cs (t_start t) /\
  t_end (token_after cs t) = latest given_TEnd cs (t_end t) /\
  t_base (token_after cs t) = latest given_TBase cs (t_base t) /\
  t_sub (token_after cs t) = latest given_TSub cs (t_sub t).
Proof. repeat apply conj; apply (latest_fold call_token); one_call. Qed.

Lemma sequence_fold cs x : e_recs (fold_left call_sequence cs x) = e_recs x ++ flat_map recorded cs /\ e_errs (fold_left call_sequence cs x) = e_errs x ++ flat_map reported cs.
Proof.
  revert x. induction cs as [|c cs IH]; intro x; [split; symmetry; apply app_nil_r|]. cbn [fold_left flat_map]. destruct (IH (call_sequence x c)) as (-> & ->). rewrite !app_assoc.
  destruct c; cbn [call_sequence recorded reported append_element add_error e_recs e_errs app]; rewrite ?app_nil_r; auto.
Qed.
Theorem sequence_history cs :
  e_recs (sequence_after cs) = new_rec ($"ADEP") 0 0 F15_POINT F15_SB_PRP_AERO :: flat_map recorded cs /\
  e_errs (sequence_after cs) = flat_map reported cs /\
  e_rules (sequence_after cs) = latest given_Derived cs [] /\
  get_number_of_elements (sequence_after cs) = 1 + zlen (flat_map recorded cs) /\ get_number_of_errors (sequence_after cs) = zlen (flat_map reported cs).
Proof.
  destruct (sequence_fold cs new_ers) as (E1 & E2). unfold get_number_of_elements, get_number_of_errors, sequence_after. rewrite E1, E2.
  split; [reflexivity|]. split; [reflexivity|]. split.
  - apply (latest_fold call_sequence e_rules given_Derived (fun x c => ltac:(destruct c; reflexivity)) cs new_ers).
  - split; [|reflexivity]. unfold zlen. cbn [new_ers append_element e_recs app List.length]. rewrite Nat2Z.inj_succ. lia.
Qed.
