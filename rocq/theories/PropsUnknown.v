(** * PropsUnknown: unrecognised elements in an otherwise correct field (C83). *)
From Coq Require Import ZArith NArith List Bool String.
From Verif Require Import PyBase Enums Tokenizer Ers Utils Parser SpecParser SpecAccept SpecLayout SpecRemoval SpecUnknown Unknown PropsParser.
Import List ListNotations.
Local Open Scope list_scope.
Local Open Scope nat_scope.

(** C83. Field [g] is the accepted field [f] with unrecognised elements [v] put in after element [x]. Then [g] gives the same
    records, all but positions, and one error for each element of [v]. *)
Theorem C83_costs_only_itself : forall (G : geodesic) (depth depth' : nat) (f g : pstr) (s : st) (pre : list (token * role)) (x : token) (rest : list (token * role)) (a v b : list token),
  parse_field15 G depth f = Ok true s -> field_roles f = pre ++ (x, ROut) :: rest -> completes pre x -> ~ after_ifr pre ->
  field_tokens g = a ++ v ++ b -> map t_text a = wordsof (pre ++ [(x, ROut)]) -> map t_text b = wordsof rest ->
  v <> [] -> Forall (fun t => unrecognised (t_base t)) v -> 3 * n_tokens g <= depth' + 1 ->
  exists s', parse_field15 G depth' g = Ok false s' /\ Forall2 same_but_place (e_recs (s_ers s)) (e_recs (s_ers s')) /\
    one_for_each x v (e_errs (s_ers s')) /\ e_rules (s_ers s') = e_rules (s_ers s).
Proof. exact costs_only_itself. Qed.
Print Assumptions C83_costs_only_itself.

Definition clean : pstr := $"N0450F350 ABC1A ABC UL9 DEF/N0460F370 STAY1/0030 VFR x y IFR GHI/N0450F350 DCT 01N002E T".
Definition soiled : pstr := $"N0450F350 ABC1A ABC UL9 DEF  ?! {} /N0460F370 STAY1/0030 VFR x y IFR GHI/N0450F350 DCT 01N002E T".
Example C83_example :
  exists s pre rest x a v b, parse_field15 flat 90 clean = Ok true s /\ field_roles clean = pre ++ (x, ROut) :: rest /\ completes pre x /\ ~ after_ifr pre /\
    field_tokens soiled = a ++ v ++ b /\ map t_text a = wordsof (pre ++ [(x, ROut)]) /\ map t_text b = wordsof rest /\
    map t_text v = [$"?!"; $"{}"] /\ Forall (fun t => unrecognised (t_base t)) v /\ 3 * n_tokens soiled <= 90 + 1.
Proof.
  eexists. exists (firstn 4 (field_roles clean)), (skipn 5 (field_roles clean)), (nth 4 (field_tokens clean) (mkToken [] 0 0 F15_UNKNOWN F15_SB_UNKNOWN)).
  exists (firstn 5 (field_tokens soiled)), (firstn 2 (skipn 5 (field_tokens soiled))), (skipn 7 (field_tokens soiled)).
  split; [vm_compute; reflexivity|]. split; [vm_compute; reflexivity|]. split; [left; vm_compute; tauto|].
  split. { intros (p & w & E & _). apply (f_equal (@rev _)) in E. rewrite rev_app_distr in E. vm_compute in E. discriminate E. }
  split; [vm_compute; reflexivity|]. split; [vm_compute; reflexivity|]. split; [vm_compute; reflexivity|]. split; [vm_compute; reflexivity|].
  split; [vm_compute; repeat constructor|]. apply Nat.leb_le. vm_compute. reflexivity.
Qed.

(** After a C that stands alone this is false: its record is lost. *)
Theorem C83_lone_c_lost : exists (G : geodesic) (depth : nat) (f g : pstr) (s s' : st) (pre : list (token * role)) (x : token) (rest : list (token * role)) (a v b : list token),
  parse_field15 G depth f = Ok true s /\ field_roles f = pre ++ (x, ROut) :: rest /\ t_base x = F15_C /\
  field_tokens g = a ++ v ++ b /\ map t_text a = wordsof (pre ++ [(x, ROut)]) /\ map t_text b = wordsof rest /\ map t_text v = [$"?!"] /\
  parse_field15 G depth g = Ok false s' /\
  map r_name (e_recs (s_ers s)) = [$"ADEP"; $"ABC"; $"C"; $"DEF"; $"ADES"] /\ map r_name (e_recs (s_ers s')) = [$"ADEP"; $"ABC"; $"DEF"; $"ADES"].
Proof.
  exists flat, 40, ($"N0450F350 ABC C DEF"), ($"N0450F350 ABC C ?! DEF"). eexists. eexists.
  exists (firstn 2 (field_roles ($"N0450F350 ABC C DEF"))), (nth 2 (field_tokens ($"N0450F350 ABC C DEF")) (mkToken [] 0 0 F15_UNKNOWN F15_SB_UNKNOWN)), (skipn 3 (field_roles ($"N0450F350 ABC C DEF"))).
  exists (firstn 3 (field_tokens ($"N0450F350 ABC C ?! DEF"))), (firstn 1 (skipn 3 (field_tokens ($"N0450F350 ABC C ?! DEF")))), (skipn 4 (field_tokens ($"N0450F350 ABC C ?! DEF"))).
  repeat (split; [vm_compute; reflexivity|]). vm_compute. reflexivity.
Qed.
Print Assumptions C83_lone_c_lost.
