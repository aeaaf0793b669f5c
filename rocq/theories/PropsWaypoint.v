(** * PropsWaypoint: C110 — a point left out or put in before another point. *)
From Coq Require Import ZArith NArith List Bool String.
From Coq Require Import Floats.SpecFloat.
From Verif Require Import PyBase PyFloat Enums ErrorTable Syntax Tokenizer Ers Utils Parser SpecNum SpecParser SpecGrammar SpecAccept SpecLayout SpecViable SpecLegs SpecRemoval SpecWaypoint Waypoint PropsParser PropsLegs.
Import List ListNotations.
Local Open Scope list_scope.
Local Open Scope nat_scope.

(** C110. A point can be put before a point of an accepted field (not after a designator if it is computed): the field is accepted, and it has the record of
    that point more, with the speed and level in force, and nothing else, but for places and legs. *)
Theorem C110_put_in : forall (G : geodesic) (depth depth' : nat) (f : pstr) (s : st) pre x p rest (w g : pstr),
  parse_field15 G depth f = Ok true s ->
  field_roles f = pre ++ x :: (p, ROut) :: rest -> t_base p = F15_POINT -> may_precede x (computed_point (snd (classify w))) -> good_point w ->
  element_texts g = wordsof (pre ++ [x]) ++ w :: wordsof ((p, ROut) :: rest) -> 3 * n_tokens g <= depth' + 1 ->
  exists s', parse_field15 G depth' g = Ok true s' /\ one_point w (s_ers s') (s_ers s).
Proof. exact point_put_in. Qed.
Print Assumptions C110_put_in.
(** A point before a point can be left out, and its record is all that goes. *)
Theorem C110_left_out : forall (G : geodesic) (depth depth' : nat) (f : pstr) (s : st) pre x q p rest (g : pstr),
  parse_field15 G depth f = Ok true s ->
  field_roles f = pre ++ x :: (q, ROut) :: (p, ROut) :: rest -> t_base q = F15_POINT -> t_base p = F15_POINT -> may_precede x (computed_point (t_sub p)) ->
  element_texts g = wordsof (pre ++ [x]) ++ wordsof ((p, ROut) :: rest) -> 3 * n_tokens g <= depth' + 1 ->
  exists s', parse_field15 G depth' g = Ok true s' /\ one_point (t_text q) (s_ers s) (s_ers s').
Proof. exact point_left_out. Qed.
Print Assumptions C110_left_out.
(** The condition on designators is needed: between a designator and a point no computed point is accepted. *)
Theorem C110_designator_refuted : exists (G : geodesic) (depth : nat) (f g w : pstr) (s s' : st) pre x p rest,
  parse_field15 G depth f = Ok true s /\ field_roles f = pre ++ x :: (p, ROut) :: rest /\ t_base p = F15_POINT /\ snd x = ROut /\ good_point w /\
  element_texts g = wordsof (pre ++ [x]) ++ w :: wordsof ((p, ROut) :: rest) /\ parse_field15 G depth g = Ok false s'.
Proof.
  set (f := $"N0450F350 ABC A5 DEF"). set (g := $"N0450F350 ABC A5 48N005E DEF"). set (w := field_roles f). set (d := (mkToken [] 0 0 F15_POINT F15_SB_UNKNOWN, ROut)).
  exists flat, 100, f, g, ($"48N005E"). do 2 eexists. exists (firstn 2 w), (nth 2 w d), (fst (nth 3 w d)), (skipn 4 w).
  do 4 (split; [vm_compute; reflexivity|]). split; [split; [vm_compute; reflexivity|vm_compute; repeat split; discriminate]|]. split; vm_compute; reflexivity.
Qed.
Print Assumptions C110_designator_refuted.
(** After the text of a section it fails, too: IFR ends a VFR section only before a point with a new speed, so that the rest becomes text of the section. *)
Theorem C110_text_refuted : exists (G : geodesic) (depth : nat) (f g w : pstr) (s s' : st) pre x p rest,
  parse_field15 G depth f = Ok true s /\ field_roles f = pre ++ x :: (p, ROut) :: rest /\ t_base p = F15_POINT /\ snd x = RText /\ good_point w /\
  element_texts g = wordsof (pre ++ [x]) ++ w :: wordsof ((p, ROut) :: rest) /\ parse_field15 G depth g = Ok true s' /\
  length (e_recs (s_ers s)) = 6 /\ length (e_recs (s_ers s')) = 4.
Proof.
  set (f := $"N0450F350 ABC VFR X IFR DEF/N0450F370 GHI"). set (g := $"N0450F350 ABC VFR X IFR XYZ DEF/N0450F370 GHI"). set (w := field_roles f). set (d := (mkToken [] 0 0 F15_POINT F15_SB_UNKNOWN, ROut)).
  exists flat, 100, f, g, ($"XYZ"). do 2 eexists. exists (firstn 4 w), (nth 4 w d), (fst (nth 5 w d)), (skipn 6 w).
  do 4 (split; [vm_compute; reflexivity|]). split; [split; [vm_compute; reflexivity|vm_compute; exact Logic.I]|]. split; [vm_compute; reflexivity|]. split; [vm_compute; reflexivity|]. split; vm_compute; reflexivity.
Qed.
Print Assumptions C110_text_refuted.
(** A point with a bearing and a distance put between a STAY and a point with coordinates. *)
Example C110_example :
  let f := $"N0450F350 ABC STAY1/0100 48N005E/N0420F330 VFR X" in
  let g := $"N0450F350 ABC STAY1/0100 4812N00530E180060 48N005E/N0420F330 VFR X" in
  (exists s, parse_field15 flat 100 f = Ok true s) /\ (exists s, parse_field15 flat 100 g = Ok true s) /\ good_point ($"4812N00530E180060") /\
  (exists pre x p rest, field_roles f = pre ++ x :: (p, ROut) :: rest /\ t_base p = F15_POINT /\ t_text p = $"48N005E" /\ may_precede x true /\
     element_texts g = wordsof (pre ++ [x]) ++ $"4812N00530E180060" :: wordsof ((p, ROut) :: rest)) /\
  (exists pre x q p rest, field_roles g = pre ++ x :: (q, ROut) :: (p, ROut) :: rest /\ t_base q = F15_POINT /\ t_base p = F15_POINT /\ t_text p = $"48N005E" /\ may_precede x true /\
     element_texts f = wordsof (pre ++ [x]) ++ wordsof ((p, ROut) :: rest)).
Proof.
  set (f := $"N0450F350 ABC STAY1/0100 48N005E/N0420F330 VFR X"). set (g := $"N0450F350 ABC STAY1/0100 4812N00530E180060 48N005E/N0420F330 VFR X").
  set (w := field_roles f). set (v := field_roles g). set (d := (mkToken [] 0 0 F15_POINT F15_SB_UNKNOWN, ROut)).
  split; [eexists; vm_compute; reflexivity|]. split; [eexists; vm_compute; reflexivity|]. split; [split; [vm_compute; reflexivity|vm_compute; repeat split; discriminate]|]. split.
  - exists (firstn 4 w), (nth 4 w d), (fst (nth 5 w d)), (skipn 6 w). do 3 (split; [vm_compute; reflexivity|]). split; [split; vm_compute; [reflexivity|discriminate]|vm_compute; reflexivity].
  - exists (firstn 4 v), (nth 4 v d), (fst (nth 5 v d)), (fst (nth 6 v d)), (skipn 7 v). do 4 (split; [vm_compute; reflexivity|]). split; [split; vm_compute; [reflexivity|discriminate]|vm_compute; reflexivity].
Qed.
