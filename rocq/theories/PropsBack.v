(** * PropsBack: C109 — the same route can be flown the other way. *)
From Coq Require Import ZArith NArith List Bool String Lia.
From Coq Require Import Floats.SpecFloat.
From Verif Require Import PyBase PyFloat Enums ErrorTable Tokenizer Ers Utils Parser SpecNum SpecParser SpecGrammar SpecLocal SpecBack Back PropsParser PropsLegs PropsMirror.
Import List ListNotations.
Local Open Scope list_scope.
Local Open Scope nat_scope.

(** C109. If a field that consists of a speed/level and of points, routes and DCT is accepted and does not end with a route, the
    field with these elements in the opposite order is accepted too: it has the same records in the opposite order between the same
    aerodrome records, the same flight rules and, if the library finds the way back as long as the way there, the same legs in the opposite order. *)
Theorem C109_way_back : forall (G : geodesic) (depth : nat) (f g : pstr) (s : st),
  way_back f g -> ~ ends_with_a_route f -> parse_field15 G depth f = Ok true s -> 3 * n_tokens f <= depth + 1 ->
  exists s', parse_field15 G depth g = Ok true s' /\
    (exists a m z m', e_recs (s_ers s) = a :: m ++ [z] /\ e_recs (s_ers s') = a :: m' ++ [z] /\ Forall2 same_apart (rev m) m') /\
    e_rules (s_ers s') = e_rules (s_ers s) /\
    (as_far_back G -> lengths (e_recs (s_ers s')) = rev (lengths (e_recs (s_ers s)))).
Proof. exact way_back_field. Qed.
Print Assumptions C109_way_back.

Definition there_route : pstr := $"N0450F350 DCT 48N005E DCT 50N001W ABC UL9 DEF 60N010W".
Definition back_route : pstr := $"N0450F350  60N010W DEF UL9 ABC 50N001W DCT 48N005E DCT".
Lemma blocks_back : as_far_back blocks.
Proof.
  assert (X : forall a b, degrees_apart a b = degrees_apart b a) by (intros; unfold degrees_apart; f_equal; lia).
  intros a b c d. cbn [blocks geo_inverse snd]. now rewrite (X a c), (X b d).
Qed.
Example C109_example : way_back there_route back_route /\ ~ ends_with_a_route there_route /\ 3 * n_tokens there_route <= 100 + 1 /\ as_far_back blocks /\
  match parse_field15 blocks 100 there_route, parse_field15 blocks 100 back_route with
  | Ok true s, Ok true s' =>
      map r_name (e_recs (s_ers s)) = [$"ADEP"; $"DCT"; $"48N005E"; $"DCT"; $"50N001W"; $"ABC"; $"UL9"; $"DEF"; $"60N010W"; $"ADES"] /\
      map r_name (e_recs (s_ers s')) = [$"ADEP"; $"60N010W"; $"DEF"; $"UL9"; $"ABC"; $"50N001W"; $"DCT"; $"48N005E"; $"DCT"; $"ADES"] /\
      lengths (e_recs (s_ers s)) = [f_of_Z 8] /\ lengths (e_recs (s_ers s')) = [f_of_Z 8]
  | _, _ => False
  end.
Proof.
  split. { eexists _, _. split; [vm_compute; reflexivity|]. split; [reflexivity|]. split; [unfold on_the_way; vm_compute; repeat (constructor; [tauto|]); constructor|vm_compute; reflexivity]. }
  split. { intros (ts & t & E & B). apply (f_equal (fun l => t_base (last l t))) in E. rewrite last_last, B in E. vm_compute in E. discriminate E. }
  split; [vm_compute; lia|]. split; [exact blocks_back|]. vm_compute. repeat split.
Qed.

(** A route may be the last element but not the first one. *)
Theorem C109_last_route_refuted : exists (f g : pstr) (s : st),
  way_back f g /\ parse_field15 flat 100 f = Ok true s /\ 3 * n_tokens f <= 100 + 1 /\
  exists s' e, parse_field15 flat 100 g = Ok false s' /\ e_errs (s_ers s') = [e] /\ r_name e = $"UL9".
Proof.
  exists ($"N0450F350 ABC UL9"), ($"N0450F350 UL9 ABC"). eexists.
  split. { eexists _, _. split; [vm_compute; reflexivity|]. split; [reflexivity|]. split; [unfold on_the_way; vm_compute; repeat (constructor; [tauto|]); constructor|vm_compute; reflexivity]. }
  split; [vm_compute; reflexivity|]. split; [vm_compute; lia|]. eexists _, _. split; [vm_compute; reflexivity|]. split; reflexivity.
Qed.
Print Assumptions C109_last_route_refuted.
