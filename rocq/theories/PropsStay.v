(** * PropsStay: C88 — a stay gives its minutes to the point it stands at, and nothing else. *)
From Coq Require Import ZArith NArith List Bool String Lia.
From Verif Require Import PyBase PyFloat Enums ErrorTable Syntax Tokenizer Ers Utils Parser SpecNum SpecParser SpecGrammar SpecAccept SpecLayout SpecViable SpecLegs SpecRemoval SpecConnector SpecStay Removal Connector Stay PropsParser PropsRemoval.
Import List ListNotations.
Local Open Scope list_scope.
Local Open Scope nat_scope.

(** C88. A stay of an accepted field can be left out, unless it separates a point given by coordinates or by bearing and distance
    from a route designator. The field without it is accepted, and the results differ in one value: the stay of the record of the
    point (or C) that it stands at, which is the time given in minutes with the stay and zero without. *)
Theorem C88_stay_left_out : forall (G : geodesic) (depth depth' : nat) (f : pstr) (s : st) pre y sl tm rest (g : pstr),
  parse_field15 G depth f = Ok true s ->
  field_roles f = pre ++ (y, ROut) :: (sl, ROut) :: (tm, ROut) :: rest -> t_base y = F15_STAY ->
  ~ (after_computed pre /\ begins_with F15_ROUTE rest) ->
  element_texts g = wordsof (pre ++ rest) -> 3 * n_tokens g <= depth' + 1 ->
  exists s' x, parse_field15 G depth' g = Ok true s' /\ stands pre x /\ one_stay (t_text (fst x)) (minutes (t_text tm)) (s_ers s) (s_ers s').
Proof. exact stay_dropped. Qed.
Print Assumptions C88_stay_left_out.
(** After a point with its changes of speed and level, and after a C, a stay can be put in that is not there yet. *)
Theorem C88_stay_put_in : forall (G : geodesic) (depth depth' : nat) (f : pstr) (s : st) pre x rest (y w g : pstr),
  parse_field15 G depth f = Ok true s ->
  field_roles f = pre ++ rest -> stands pre x -> ~ begins_with F15_SLASH rest -> ~ begins_with F15_STAY rest ->
  fst (classify y) = F15_STAY -> fst (classify w) = F15_STAY_TIME ->
  element_texts g = wordsof pre ++ y :: $"/" :: w :: wordsof rest -> 3 * n_tokens g <= depth' + 1 ->
  exists s', parse_field15 G depth' g = Ok true s' /\ one_stay (t_text (fst x)) (minutes w) (s_ers s') (s_ers s).
Proof. exact stay_inserted. Qed.
Print Assumptions C88_stay_put_in.

(** The restrictions are needed; the first line is a stay that hides a route designator after coordinates from the check that
    rejects it. The others: a stay before the changes of its point, a second stay, a stay after the first element, and one
    after a route designator. *)
Theorem C88_anywhere_refuted :
  (says_ok ($"N0450F350 48N005E STAY1/0100 UL9 ABC") /\ ~ says_ok ($"N0450F350 48N005E UL9 ABC")) /\
  (says_ok ($"N0450F350 ABC/N0430F330 DEF") /\ ~ says_ok ($"N0450F350 ABC STAY1/0100 /N0430F330 DEF")) /\
  (says_ok ($"N0450F350 ABC STAY1/0100 DEF") /\ ~ says_ok ($"N0450F350 ABC STAY1/0100 STAY2/0100 DEF")) /\
  (says_ok ($"N0450F350 DCT DEF") /\ ~ says_ok ($"N0450F350 STAY1/0100 DCT DEF")) /\
  (says_ok ($"N0450F350 ABC UL9 DEF") /\ ~ says_ok ($"N0450F350 ABC UL9 STAY1/0100 DEF")).
Proof. repeat split; try (eexists; vm_compute; reflexivity); intros (s & H); vm_compute in H; discriminate H. Qed.
Print Assumptions C88_anywhere_refuted.

(** Both theorems apply to a field with a stay after a change of speed and level: the one removes it, the other puts it back. *)
Example C88_example :
  let f := $"N0450F350 ABC/N0430F330 STAY1/0130 UL9 DEF" in
  let g := $"N0450F350 ABC/N0430F330 UL9 DEF" in
  says_ok f /\ says_ok g /\
  (exists pre y sl tm rest, field_roles f = pre ++ (y, ROut) :: (sl, ROut) :: (tm, ROut) :: rest /\ t_base y = F15_STAY /\
     ~ (after_computed pre /\ begins_with F15_ROUTE rest) /\ element_texts g = wordsof (pre ++ rest) /\ minutes (t_text tm) = 90%Z) /\
  (exists pre x rest, field_roles g = pre ++ rest /\ stands pre x /\ t_text (fst x) = $"ABC" /\ ~ begins_with F15_SLASH rest /\ ~ begins_with F15_STAY rest /\
     fst (classify ($"STAY1")) = F15_STAY /\ fst (classify ($"0130")) = F15_STAY_TIME /\
     element_texts f = wordsof pre ++ $"STAY1" :: $"/" :: $"0130" :: wordsof rest).
Proof.
  set (f := $"N0450F350 ABC/N0430F330 STAY1/0130 UL9 DEF"). set (g := $"N0450F350 ABC/N0430F330 UL9 DEF"). cbv zeta.
  split; [eexists; vm_compute; reflexivity|]. split; [eexists; vm_compute; reflexivity|]. split.
  - set (w := field_roles f). exists (firstn 4 w), (fst (nth 4 w (dct_token, ROut))), (fst (nth 5 w (dct_token, ROut))), (fst (nth 6 w (dct_token, ROut))), (skipn 7 w).
    do 2 (split; [vm_compute; reflexivity|]). split; [|split; vm_compute; reflexivity].
    intros ((p0 & x & m & E & _ & Hx) & _). assert (In x (firstn 4 w)) by (rewrite E; apply in_or_app; right; now left). destruct Hx as [_ Hx].
    assert (K : forallb (fun y => negb (computed_point (t_sub (fst y)))) (firstn 4 w) = true) by (vm_compute; reflexivity). rewrite forallb_forall in K. specialize (K x H). rewrite Hx in K. discriminate K.
  - set (w := field_roles g). exists (firstn 4 w), (nth 1 w (dct_token, ROut)), (skipn 4 w). split; [vm_compute; reflexivity|]. split.
    { exists (firstn 1 w), [nth 2 w (dct_token, ROut); nth 3 w (dct_token, ROut)]. split; [vm_compute; reflexivity|]. split.
      - assert (E : [nth 2 w (dct_token, ROut); nth 3 w (dct_token, ROut)] = [] ++ [(fst (nth 2 w (dct_token, ROut)), ROut); (fst (nth 3 w (dct_token, ROut)), ROut)]) by (vm_compute; reflexivity). rewrite E.
        constructor; [constructor|vm_compute; reflexivity|vm_compute; auto].
      - right. split; [vm_compute; reflexivity|left; vm_compute; reflexivity]. }
    split; [vm_compute; reflexivity|]. do 2 (split; [intros (t & r & E & B); apply (f_equal (fun l => t_base (fst (hd (dct_token, ROut) l)))) in E; cbn [hd fst] in E; rewrite B in E; vm_compute in E; discriminate E|]).
    repeat split; vm_compute; reflexivity.
Qed.
