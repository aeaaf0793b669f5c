(** * PropsSections: C107 — a section of a flight under other rules left out or put in. *)
From Coq Require Import ZArith NArith List Bool String.
From Coq Require Import Floats.SpecFloat.
From Verif Require Import PyBase PyFloat Enums ErrorTable Syntax Tokenizer Ers Utils Parser SpecNum SpecParser SpecGrammar SpecAccept SpecLayout SpecViable SpecLegs SpecRemoval SpecSections Sections PropsParser PropsLegs.
Import List ListNotations.
Local Open Scope list_scope.
Local Open Scope nat_scope.

(** C107. A section (VFR … IFR, OAT … GAT, IFPSTOP … IFPSTART) that comes to an end only adds its record: the field without it is accepted,
    and its records are those of the field without the record of that section, but for places and legs. *)
Theorem C107_left_out : forall (G : geodesic) (depth depth' : nat) (f : pstr) (s : st) pre b txt p rest (g : pstr),
  parse_field15 G depth f = Ok true s ->
  field_roles f = pre ++ (b, ROut) :: map (fun t => (t, RText)) txt ++ (p, ROut) :: rest -> t_base b = F15_BREAK_START -> ~ then_vfr rest ->
  element_texts g = wordsof pre ++ wordsof ((p, ROut) :: rest) -> 3 * n_tokens g <= depth' + 1 ->
  exists s' k, begins (t_sub b) = Some k /\ parse_field15 G depth' g = Ok true s' /\ one_section k (t_text b) (map t_text txt) (s_ers s) (s_ers s').
Proof. exact section_left_out. Qed.
Print Assumptions C107_left_out.
(** A section can be put before a point of an accepted field, unless a route, a DCT, a SID, the text of another section or only the first element comes before it.
    Its words are free but for the word that ends it; a VFR section needs a speed and level after the point. *)
Theorem C107_put_in : forall (G : geodesic) (depth depth' : nat) (f : pstr) (s : st) pre x p rest k ws (g : pstr),
  parse_field15 G depth f = Ok true s ->
  field_roles f = pre ++ x :: (p, ROut) :: rest -> pre <> [] -> before_section x -> t_base p = F15_POINT -> (k = KVfr -> then_level rest) ->
  Forall (fun w => fst (classify w) <> F15_TOO_LONG /\ ends k (snd (classify w)) = false) ws ->
  element_texts g = wordsof (pre ++ [x]) ++ (fst (keywords k) :: ws ++ [snd (keywords k)]) ++ wordsof ((p, ROut) :: rest) -> 3 * n_tokens g <= depth' + 1 ->
  exists s', parse_field15 G depth' g = Ok true s' /\ one_section k (fst (keywords k)) (ws ++ [snd (keywords k)]) (s_ers s') (s_ers s).
Proof. exact section_put_in. Qed.
Print Assumptions C107_put_in.
(** The restriction on what comes after a VFR section is needed: the coordinates of the point of a second VFR section are not looked at if it comes right after the first. *)
Theorem C107_rejoin_refuted : exists (G : geodesic) (depth : nat) (f g : pstr) (s s' : st) pre b txt p rest,
  parse_field15 G depth f = Ok true s /\ field_roles f = pre ++ (b, ROut) :: map (fun t => (t, RText)) txt ++ (p, ROut) :: rest /\ t_base b = F15_BREAK_START /\ then_vfr rest /\
  element_texts g = wordsof pre ++ wordsof ((p, ROut) :: rest) /\ parse_field15 G depth g = Ok false s'.
Proof.
  set (f := $"N0450F350 ABC VFR X IFR 99N005E/N0450VFR Z"). set (g := $"N0450F350 ABC 99N005E/N0450VFR Z"). set (w := field_roles f). set (d := (mkToken [] 0 0 F15_POINT F15_SB_UNKNOWN, ROut)).
  exists flat, 100, f, g. do 2 eexists. exists (firstn 2 w), (fst (nth 2 w d)), (map fst (firstn 2 (skipn 3 w))), (fst (nth 5 w d)), (skipn 6 w).
  split; [vm_compute; reflexivity|]. split; [vm_compute; reflexivity|]. split; [vm_compute; reflexivity|].
  split; [exists (nth 6 w d), (fst (nth 7 w d)), (snd (nth 7 w d)), (skipn 8 w); split; vm_compute; reflexivity|]. split; vm_compute; reflexivity.
Qed.
Print Assumptions C107_rejoin_refuted.
(** A VFR section changes the flight rules of the whole field. *)
Theorem C107_rules_refuted : exists (G : geodesic) (depth : nat) (f g : pstr) (s s' : st) pre b txt p rest,
  parse_field15 G depth f = Ok true s /\ field_roles f = pre ++ (b, ROut) :: map (fun t => (t, RText)) txt ++ (p, ROut) :: rest /\ t_sub b = F15_SB_VFR /\
  element_texts g = wordsof pre ++ wordsof ((p, ROut) :: rest) /\ parse_field15 G depth g = Ok true s' /\ e_rules (s_ers s) = $"Y" /\ e_rules (s_ers s') = $"I".
Proof.
  set (f := $"N0450F350 ABC VFR X IFR DEF/N0450F370 GHI"). set (g := $"N0450F350 ABC DEF/N0450F370 GHI"). set (w := field_roles f). set (d := (mkToken [] 0 0 F15_POINT F15_SB_UNKNOWN, ROut)).
  exists flat, 100, f, g. do 2 eexists. exists (firstn 2 w), (fst (nth 2 w d)), (map fst (firstn 2 (skipn 3 w))), (fst (nth 5 w d)), (skipn 6 w).
  do 4 (split; [vm_compute; reflexivity|]). split; [vm_compute; reflexivity|]. split; vm_compute; reflexivity.
Qed.
Print Assumptions C107_rules_refuted.
(** A field with a section of words that look like elements, and the field without it. *)
Example C107_example :
  let f := $"N0450F350 ABC STAY1/0100 OAT DCT N0450F350 GAT / IFR X GAT 48N005E/N0420F330 DCT DEF" in
  let g := $"N0450F350 ABC STAY1/0100 48N005E/N0420F330 DCT DEF" in
  (exists s, parse_field15 flat 100 f = Ok true s) /\ (exists s, parse_field15 flat 100 g = Ok true s) /\
  (exists pre b txt p rest, field_roles f = pre ++ (b, ROut) :: map (fun t => (t, RText)) txt ++ (p, ROut) :: rest /\ t_base b = F15_BREAK_START /\
     map t_text txt = [$"DCT"; $"N0450F350"; $"GAT"; $"/"; $"IFR"; $"X"; $"GAT"] /\ t_text p = $"48N005E" /\ element_texts g = wordsof pre ++ wordsof ((p, ROut) :: rest)).
Proof.
  set (f := $"N0450F350 ABC STAY1/0100 OAT DCT N0450F350 GAT / IFR X GAT 48N005E/N0420F330 DCT DEF"). set (w := field_roles f). set (d := (mkToken [] 0 0 F15_POINT F15_SB_UNKNOWN, ROut)).
  split; [eexists; vm_compute; reflexivity|]. split; [eexists; vm_compute; reflexivity|].
  exists (firstn 5 w), (fst (nth 5 w d)), (map fst (firstn 7 (skipn 6 w))), (fst (nth 13 w d)), (skipn 14 w). repeat (split; [vm_compute; reflexivity|]). vm_compute. reflexivity.
Qed.
Example C107_example_in :
  let g := $"N0450F350 ABC STAY1/0100 48N005E/N0420F330 DCT DEF" in
  let f := $"N0450F350 ABC STAY1/0100 VFR DCT N0450F350 GAT / X IFR 48N005E/N0420F330 DCT DEF" in
  (exists s, parse_field15 flat 100 g = Ok true s) /\ (exists s, parse_field15 flat 100 f = Ok true s) /\
  exists pre x p rest, field_roles g = pre ++ x :: (p, ROut) :: rest /\ pre <> [] /\ before_section x /\ t_base p = F15_POINT /\ then_level rest /\
    Forall (fun w => fst (classify w) <> F15_TOO_LONG /\ ends KVfr (snd (classify w)) = false) [$"DCT"; $"N0450F350"; $"GAT"; $"/"; $"X"] /\
    element_texts f = wordsof (pre ++ [x]) ++ (fst (keywords KVfr) :: [$"DCT"; $"N0450F350"; $"GAT"; $"/"; $"X"] ++ [snd (keywords KVfr)]) ++ wordsof ((p, ROut) :: rest).
Proof.
  set (g := $"N0450F350 ABC STAY1/0100 48N005E/N0420F330 DCT DEF"). set (w := field_roles g). set (d := (mkToken [] 0 0 F15_POINT F15_SB_UNKNOWN, ROut)).
  split; [eexists; vm_compute; reflexivity|]. split; [eexists; vm_compute; reflexivity|].
  exists (firstn 4 w), (nth 4 w d), (fst (nth 5 w d)), (skipn 6 w). split; [vm_compute; reflexivity|]. split; [vm_compute; discriminate|]. split; [split; vm_compute; [reflexivity|exact Logic.I]|]. split; [vm_compute; reflexivity|].
  split; [exists (fst (nth 6 w d)), (fst (nth 7 w d)), (skipn 8 w); repeat split; vm_compute; reflexivity|].
  split; [|vm_compute; reflexivity]. repeat (constructor; [split; [vm_compute; discriminate|vm_compute; reflexivity]|]). constructor.
Qed.
