(** * PropsConnector: C87 — a route designator and a DCT are interchangeable between points. *)
From Coq Require Import ZArith NArith List Bool String Lia.
From Verif Require Import PyBase PyFloat Enums ErrorTable Syntax Tokenizer Ers Utils Parser SpecNum SpecParser SpecGrammar SpecAccept SpecLayout SpecViable SpecLegs SpecRemoval SpecConnector Removal Connector PropsParser PropsRemoval.
Import List ListNotations.
Local Open Scope list_scope.
Local Open Scope nat_scope.

(** C87. In an accepted field a route designator that does not follow a SID can be replaced by DCT: the field is accepted,
    and all records but that of the element itself have the same values, legs included; its own record has other names and types only. *)
Theorem C87_route_to_dct : forall (G : geodesic) (depth depth' : nat) (f : pstr) (s : st) pre r rest (g : pstr),
  parse_field15 G depth f = Ok true s ->
  field_roles f = pre ++ (r, ROut) :: rest -> t_base r = F15_ROUTE -> ~ after_sid pre ->
  element_texts g = wordsof pre ++ $"DCT" :: wordsof rest -> 3 * n_tokens g <= depth' + 1 ->
  exists s', parse_field15 G depth' g = Ok true s' /\ one_replaced (t_text r) F15_ROUTE ($"DCT") F15_DCT (s_ers s) (s_ers s').
Proof. exact route_to_dct. Qed.
Print Assumptions C87_route_to_dct.
(** A DCT can be replaced by any route designator, unless it follows the first element, or a point given by coordinates or by
    bearing and distance, or such a point follows it. *)
Theorem C87_dct_to_route : forall (G : geodesic) (depth depth' : nat) (f : pstr) (s : st) pre d rest (w g : pstr),
  parse_field15 G depth f = Ok true s ->
  field_roles f = pre ++ (d, ROut) :: rest -> t_base d = F15_DCT -> 2 <= length pre -> ~ after_computed pre -> ~ before_computed rest ->
  fst (classify w) = F15_ROUTE ->
  element_texts g = wordsof pre ++ w :: wordsof rest -> 3 * n_tokens g <= depth' + 1 ->
  exists s', parse_field15 G depth' g = Ok true s' /\ one_replaced (t_text d) F15_DCT w F15_ROUTE (s_ers s) (s_ers s').
Proof. exact dct_to_route. Qed.
Print Assumptions C87_dct_to_route.

(** The four restrictions are needed. *)
Theorem C87_anywhere_refuted :
  (says_ok ($"N0450F350 ABC1A UL9 DEF") /\ ~ says_ok ($"N0450F350 ABC1A DCT DEF")) /\
  (says_ok ($"N0450F350 DCT ABC") /\ ~ says_ok ($"N0450F350 UL9 ABC")) /\
  (says_ok ($"N0450F350 48N005E DCT ABC") /\ ~ says_ok ($"N0450F350 48N005E UL9 ABC")) /\
  (says_ok ($"N0450F350 ABC DCT 48N005E") /\ ~ says_ok ($"N0450F350 ABC UL9 48N005E")).
Proof. repeat split; try (eexists; vm_compute; reflexivity); intros (s & H); vm_compute in H; discriminate H. Qed.
Print Assumptions C87_anywhere_refuted.

Example C87_example :
  let f := $"N0450F350 ABC/N0430F330 UL9 DEF DCT GHI" in
  says_ok f /\
  (exists pre r rest, field_roles f = pre ++ (r, ROut) :: rest /\ t_base r = F15_ROUTE /\ length pre = 4 /\ ~ after_sid pre /\
     element_texts ($"N0450F350 ABC/N0430F330 DCT DEF DCT GHI") = wordsof pre ++ $"DCT" :: wordsof rest) /\
  (exists pre d rest, field_roles f = pre ++ (d, ROut) :: rest /\ t_base d = F15_DCT /\ length pre = 6 /\ ~ after_computed pre /\ ~ before_computed rest /\
     fst (classify ($"NATA")) = F15_ROUTE /\ element_texts ($"N0450F350 ABC/N0430F330 UL9 DEF NATA GHI") = wordsof pre ++ $"NATA" :: wordsof rest).
Proof.
  set (f := $"N0450F350 ABC/N0430F330 UL9 DEF DCT GHI"). set (w := field_roles f). split; [eexists; vm_compute; reflexivity|]. split.
  - exists (firstn 4 w), (fst (nth 4 w (dct_token, ROut))), (skipn 5 w). do 3 (split; [vm_compute; reflexivity|]). split; [|vm_compute; reflexivity].
    intros (p0 & x & E & Hx). apply (f_equal (fun l => last l (dct_token, ROut))) in E. rewrite last_last in E. rewrite <- E in Hx. vm_compute in Hx. intuition discriminate.
  - exists (firstn 6 w), (fst (nth 6 w (dct_token, ROut))), (skipn 7 w). do 3 (split; [vm_compute; reflexivity|]). split; [|split; [|split; vm_compute; reflexivity]].
    + intros (p0 & x & m & E & _ & Hx). assert (In x (firstn 6 w)) by (rewrite E; apply in_or_app; right; now left). destruct Hx as [_ Hx].
      assert (K : forallb (fun y => negb (computed_point (t_sub (fst y)))) (firstn 6 w) = true) by (vm_compute; reflexivity). rewrite forallb_forall in K. specialize (K x H). rewrite Hx in K. discriminate K.
    + intros (t & r0 & E & _ & Hx). apply (f_equal (fun l => computed_point (t_sub (fst (hd (dct_token, ROut) l))))) in E. cbn [hd fst] in E. rewrite Hx in E. vm_compute in E. discriminate E.
Qed.
