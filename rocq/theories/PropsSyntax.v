(** * PropsSyntax: C07-C12 and the syntax of stay times (C43). *)
From Coq Require Import ZArith NArith List Bool String.
From Verif Require Import PyBase Enums Regex SyntaxTable Syntax Parser SpecRegex RegexProofs SyntaxProofs.
Import List ListNotations.
Local Open Scope list_scope.
Local Open Scope nat_scope.

(** The matcher used by the model decides the textbook language of a pattern. *)
Theorem C07_matcher_correct : forall (r : re) (s : pstr), wf_re r = true -> (fullmatch r s = true <-> re_in r s).
Proof. intros r s H. exact (fullmatch_spec r s H). Qed.
Print Assumptions C07_matcher_correct.

(** C07: types of the first row whose pattern describes the whole text, UNKNOWN iff none does. *)
Theorem C07_first_matching_row : forall (s : pstr) (T : base_type * sub_type),
  get_token_type s = T <->
  (exists i row, nth_error f15_configuration i = Some row /\ row_types row = T /\ first_row i s) \/
  (T = (F15_UNKNOWN, F15_SB_UNKNOWN) /\ forall row, In row f15_configuration -> ~ row_matches row s).
Proof. exact get_token_type_spec. Qed.
Print Assumptions C07_first_matching_row.

Example C07_example : get_token_type ($"UL607") = (F15_ROUTE, F15_SB_ATS) /\ first_row 35 ($"UL607")
  /\ get_token_type ($"abc") = (F15_UNKNOWN, F15_SB_UNKNOWN).
Proof. split; [vm_compute; reflexivity|]. split; [apply first_row_b_spec; vm_compute; reflexivity|vm_compute; reflexivity]. Qed.

(** C08: length and alphabet. *)
Theorem C08_too_long : forall s : pstr,
  (fst (classify s) = F15_TOO_LONG <-> (25 < zlen s)%Z) /\
  ((zlen s <= 25)%Z -> classify s = get_token_type s) /\
  ((25 < zlen s)%Z -> classify s = (F15_TOO_LONG, F15_SB_UNKNOWN)).
Proof. exact classify_spec. Qed.
Print Assumptions C08_too_long.

Theorem C08_recognised_alphabet : forall s : pstr,
  fst (classify s) <> F15_UNKNOWN -> fst (classify s) <> F15_TOO_LONG ->
  (1 <= zlen s <= 17)%Z /\ forall c, In c s -> ((65 <= c <= 90) \/ (48 <= c <= 57) \/ c = 47)%N.
Proof. exact classify_recognised. Qed.
Print Assumptions C08_recognised_alphabet.

Example C08_example : classify ($"5130N00000W090010") = (F15_POINT, F15_SB_LLBD_MIN).
Proof. vm_compute; reflexivity. Qed.

(** C09: points. *)
Theorem C09_points : forall s : pstr,
  (get_token_type s = (F15_POINT, F15_SB_LL_DEG) <-> re_in lat_long_degrees s) /\
  (get_token_type s = (F15_POINT, F15_SB_LL_MIN) <-> re_in lat_long_minutes s) /\
  (get_token_type s = (F15_POINT, F15_SB_LLBD_DEG) <-> re_in (lat_long_degrees +++ bearing_distance) s) /\
  (get_token_type s = (F15_POINT, F15_SB_LLBD_MIN) <-> re_in (lat_long_minutes +++ bearing_distance) s) /\
  (get_token_type s = (F15_POINT, F15_SB_PRP_BD) <-> re_in point_bearing_distance s) /\
  (get_token_type s = (F15_POINT, F15_SB_PRP_AERO) <-> re_in aerodrome s /\ ~ re_in reserved_aerodromes s) /\
  (get_token_type s = (F15_POINT, F15_SB_PRP) <-> re_in published_point s /\ ~ re_in reserved_points s).
Proof.
  intro s. repeat match goal with |- _ /\ _ => apply conj end;
    first [ apply type_iff'; vm_compute; reflexivity | apply type_iff; vm_compute; reflexivity ].
Qed.
Print Assumptions C09_points.

(** ... and nothing else is a point. *)
Theorem C09_point_sub_types : forall s : pstr, fst (get_token_type s) = F15_POINT ->
  In (snd (get_token_type s)) [F15_SB_LL_DEG; F15_SB_LL_MIN; F15_SB_LLBD_DEG; F15_SB_LLBD_MIN;
                               F15_SB_PRP_BD; F15_SB_PRP_AERO; F15_SB_PRP].
Proof. exact point_sub_types. Qed.
Print Assumptions C09_point_sub_types.

Example C09_example : get_token_type ($"LONAM") = (F15_POINT, F15_SB_PRP)
  /\ get_token_type ($"EGLL") = (F15_POINT, F15_SB_PRP_AERO) /\ get_token_type ($"STAR") = (F15_STAR, F15_SB_STAR_LITERAL).
Proof. vm_compute; repeat split. Qed.

(** Keywords are exactly one word each. *)
Theorem C09_keywords : forall s : pstr,
  (get_token_type s = (F15_BREAK_START, F15_SB_VFR) <-> re_in (lit "VFR") s) /\
  (get_token_type s = (F15_BREAK_START, F15_SB_OAT) <-> re_in (lit "OAT") s) /\
  (get_token_type s = (F15_BREAK_START, F15_SB_IFPSTOP) <-> re_in (lit "IFPSTOP") s) /\
  (get_token_type s = (F15_BREAK_END, F15_SB_IFR) <-> re_in (lit "IFR") s) /\
  (get_token_type s = (F15_BREAK_END, F15_SB_GAT) <-> re_in (lit "GAT") s) /\
  (get_token_type s = (F15_BREAK_END, F15_SB_IFPSTART) <-> re_in (lit "IFPSTART") s) /\
  (fst (get_token_type s) = F15_DCT <-> re_in (lit "DCT") s) /\
  (fst (get_token_type s) = F15_TRUNCATE <-> re_in (lit "T") s) /\
  (fst (get_token_type s) = F15_C <-> re_in (lit "C") s) /\
  (fst (get_token_type s) = F15_SLASH <-> re_in (lit "/") s) /\
  (fst (get_token_type s) = F15_SID <-> re_in (lit "SID") s) /\
  (fst (get_token_type s) = F15_STAR <-> re_in (lit "STAR") s) /\
  (fst (get_token_type s) = F15_STAY <-> re_in (lit "STAY" +++ digit) s).
Proof.
  intro s. repeat match goal with |- _ /\ _ => apply conj end;
    first [ apply type_iff'; vm_compute; reflexivity | apply base_iff'; vm_compute; reflexivity ].
Qed.
Print Assumptions C09_keywords.

(** The words denoted by a literal pattern. *)
Theorem C09_literal_meaning : forall w s : pstr, re_in (lits w) s <-> s = w.
Proof. exact lits_spec. Qed.
Print Assumptions C09_literal_meaning.

(** C10: speed/level and speed/VFR. *)
Theorem C10_speed_level : forall s : pstr,
  (fst (get_token_type s) = F15_SPEED_ALTITUDE <-> re_in (speed +++ level) s) /\
  (fst (get_token_type s) = F15_SPEED_VFR <-> re_in (speed +++ lit "VFR") s) /\
  (fst (get_token_type s) = F15_SPEED_ALTITUDE_PLUS <-> re_in (speed +++ level +++ lit "PLUS") s).
Proof. intro s. repeat match goal with |- _ /\ _ => apply conj end; apply base_iff'; vm_compute; reflexivity. Qed.
Print Assumptions C10_speed_level.

Theorem C10_sub_types_name_letters : forall (k x : N) (s : pstr), In k speed_letters -> In x level_letters ->
  (re_in (speed_with k +++ level_with x) s ->
     exists sb, get_token_type s = (F15_SPEED_ALTITUDE, sb) /\ sub_name sb = $"F15_SB_SPEED_ALTITUDE_" ++ [k; x]) /\
  (re_in (speed_with k +++ lit "VFR") s ->
     exists sb, get_token_type s = (F15_SPEED_VFR, sb) /\ sub_name sb = $"F15_SB_SPEED_ALTITUDE_" ++ [k] ++ $"V") /\
  (re_in (speed_with k +++ level_with x +++ lit "PLUS") s ->
     exists sb, get_token_type s = (F15_SPEED_ALTITUDE_PLUS, sb) /\ sub_name sb = $"F15_SB_SPEED_ALTITUDE_" ++ [k; x] ++ $"_P").
Proof. intros k x s Hk Hx. exact (conj (sa_name k x s Hk Hx) (conj (sv_name k s Hk) (sap_name k x s Hk Hx))). Qed.
Print Assumptions C10_sub_types_name_letters.

Example C10_example : get_token_type ($"M082S1130") = (F15_SPEED_ALTITUDE, F15_SB_SPEED_ALTITUDE_MS)
  /\ get_token_type ($"N0450F35") = (F15_UNKNOWN, F15_SB_UNKNOWN).
Proof. vm_compute; repeat split. Qed.

(** C11: false.  A well-formed cruise-climb element is UNKNOWN, another one is typed
    with the wrong letters. *)
Theorem C11_cruise_climb_refuted :
  (exists s, re_in (speed +++ level +++ level) s /\ get_token_type s = (F15_UNKNOWN, F15_SB_UNKNOWN)) /\
  (exists s, re_in (speed_with 75 +++ level_with 70 +++ level_with 65) s /\
             get_token_type s = (F15_SPEED_ALTITUDE_ALTITUDE, F15_SB_SPEED_ALTITUDE_KFS)) /\
  (exists s, ~ re_in (speed +++ level +++ level) s /\ fst (get_token_type s) = F15_SPEED_ALTITUDE_ALTITUDE).
Proof.
  split; [|split].
  - exists ($"N0450A050S1130"). split; [|vm_compute; reflexivity]. apply fullmatch_spec; vm_compute; reflexivity.
  - exists ($"K0450F350A050"). split; [|vm_compute; reflexivity]. apply fullmatch_spec; vm_compute; reflexivity.
  - exists ($"N0450A0505S1130"). split; [|vm_compute; reflexivity]. intro H. apply fullmatch_spec in H; [|reflexivity].
    vm_compute in H. discriminate.
Qed.
Print Assumptions C11_cruise_climb_refuted.

(** What holds: every letter combination but NAS, NAM and KFA. *)
Theorem C11_cruise_climb_partial : forall (k x y : N) (s : pstr),
  In k speed_letters -> In x level_letters -> In y level_letters ->
  ~ In [k; x; y] [$"NAS"; $"NAM"; $"KFA"] ->
  re_in (speed_with k +++ level_with x +++ level_with y) s ->
  exists sb, get_token_type s = (F15_SPEED_ALTITUDE_ALTITUDE, sb) /\ sub_name sb = $"F15_SB_SPEED_ALTITUDE_" ++ [k; x; y].
Proof. exact cc_name. Qed.
Print Assumptions C11_cruise_climb_partial.

(** The exact language of two-level elements: the two N..A.. forms want four digits after A. *)
Theorem C11_exact_language : forall s : pstr,
  fst (get_token_type s) = F15_SPEED_ALTITUDE_ALTITUDE <->
  (re_in (any_of [speed +++ level +++ level; lit "N" +++ digits 4 +++ lit "A" +++ digits 4 +++ lit "S" +++ digits 4;
                  lit "N" +++ digits 4 +++ lit "A" +++ digits 4 +++ lit "M" +++ digits 4]) s
   /\ ~ re_in (any_of [lit "N" +++ digits 4 +++ lit "A" +++ digits 3 +++ lit "S" +++ digits 4;
                       lit "N" +++ digits 4 +++ lit "A" +++ digits 3 +++ lit "M" +++ digits 4]) s).
Proof. exact saa_exact. Qed.
Print Assumptions C11_exact_language.

(** C12: false, row 38 ([A-Z][0-9]{3}[A-Z], F15TokenSyntaxDescriptions.py:245) is unreachable; all others are live. *)
Theorem C12_every_row_live_refuted :
  38 < length f15_configuration /\ forall s, ~ first_row 38 s.
Proof. split; [apply Nat.ltb_lt; vm_compute; reflexivity|exact row_dead]. Qed.
Print Assumptions C12_every_row_live_refuted.

Theorem C12_other_rows_live_partial : forall i, i < length f15_configuration -> i <> 38 -> exists s, first_row i s.
Proof. exact rows_live. Qed.
Print Assumptions C12_other_rows_live_partial.

(** C43 (syntax): a stay time is HHMM. *)
Theorem C43_stay_time_syntax : forall s : pstr,
  fst (get_token_type s) = F15_STAY_TIME <-> re_in (hours +++ minutes) s.
Proof. intro s. apply base_iff'; vm_compute; reflexivity. Qed.
Print Assumptions C43_stay_time_syntax.
