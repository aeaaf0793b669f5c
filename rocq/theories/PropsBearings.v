(** * PropsBearings: C100 — positions can be compared by their coordinates. *)
From Coq Require Import ZArith NArith List Bool String.
From Verif Require Import PyBase PyFloat Enums Tokenizer Ers Utils Parser SpecNum SpecParser SpecOrder SpecBearings Bearings PropsParser PropsLegs.
Import List ListNotations.
Local Open Scope list_scope.
Local Open Scope Z_scope.

(** C100. For any two records with given coordinates: the one further north (east) has the greater latitude (longitude) ... *)
Theorem C100_north : forall (G G' : geodesic) (r r' : rrec), occurs G r -> occurs G' r' -> r_llv r = true -> r_llv r' = true ->
  plain_point (r_name r) -> plain_point (r_name r') -> north (r_name r) < north (r_name r') -> value (r_lat r) < value (r_lat r').
Proof. exact lat_order. Qed.
Print Assumptions C100_north.
Theorem C100_east : forall (G G' : geodesic) (r r' : rrec), occurs G r -> occurs G' r' -> r_llv r = true -> r_llv r' = true ->
  plain_point (r_name r) -> plain_point (r_name r') -> east (r_name r) < east (r_name r') -> value (r_lon r) < value (r_lon r').
Proof. exact lon_order. Qed.
Print Assumptions C100_east.
(** ... and if the minutes are below 60 they compare exactly as the places do; so equal values mean the same place. *)
Theorem C100_compare : forall (G G' : geodesic) (r r' : rrec), occurs G r -> occurs G' r' -> r_llv r = true -> r_llv r' = true ->
  plain_point (r_name r) -> plain_point (r_name r') -> orderly (r_name r) -> orderly (r_name r') ->
  (value (r_lat r) ?= value (r_lat r')) = (north (r_name r) ?= north (r_name r')) /\ (value (r_lon r) ?= value (r_lon r')) = (east (r_name r) ?= east (r_name r')).
Proof. exact lat_iff. Qed.
Print Assumptions C100_compare.

Definition rec_of (f : pstr) : rrec := nth 1 (recs_of f) (dummy []).
Definition has_second (o : out bool) : bool := match o with Ok _ s => match e_recs (s_ers s) with _ :: _ :: _ => true | _ => false end | Exn _ _ => false end.
Lemma rec_occurs f : has_second (parse_field15 second 100 f) = true -> occurs second (rec_of f).
Proof.
  unfold rec_of, recs_of. intro H. destruct (parse_field15 second 100 f) as [b s|e s] eqn:P; [|discriminate]. exists 100%nat, f, b, s. split; [exact P|].
  cbn [has_second final] in *. destruct (e_recs (s_ers s)) as [|r [|q l]]; try discriminate. cbn [nth]. right. now left.
Qed.
Definition south_point : pstr := $"N0450F350 0001S00000W".
Definition equator : pstr := $"N0450F350 00N000E".
Definition equator_s : pstr := $"N0450F350 0000S00000W".
Example C100_example :
  occurs second (rec_of south_point) /\ occurs second (rec_of equator) /\ occurs second (rec_of equator_s) /\
  map r_llv [rec_of south_point; rec_of equator; rec_of equator_s] = [true; true; true] /\
  map (fun r => north (r_name r)) [rec_of south_point; rec_of equator; rec_of equator_s] = [-1; 0; 0] /\
  r_lat (rec_of equator) <> r_lat (rec_of equator_s) /\ value (r_lat (rec_of equator)) = value (r_lat (rec_of equator_s)) /\
  value (r_lat (rec_of south_point)) <? 0 = true.
Proof.
  split; [apply rec_occurs; vm_compute; reflexivity|]. split; [apply rec_occurs; vm_compute; reflexivity|]. split; [apply rec_occurs; vm_compute; reflexivity|].
  split; [vm_compute; reflexivity|]. split; [vm_compute; reflexivity|]. split; [vm_compute; discriminate|]. split; vm_compute; reflexivity.
Qed.
(** With 60 minutes or more (an error) the same place may have two values. *)
Theorem C100_orderly : exists (G : geodesic) (r r' : rrec), occurs G r /\ occurs G r' /\ r_llv r = true /\ r_llv r' = true /\
  plain_point (r_name r) /\ plain_point (r_name r') /\ north (r_name r) = north (r_name r') /\ value (r_lat r) <> value (r_lat r').
Proof.
  exists second, (rec_of ($"N0450F350 0171N00000E")), (rec_of ($"N0450F350 0211N00000E")).
  split; [apply rec_occurs; vm_compute; reflexivity|]. split; [apply rec_occurs; vm_compute; reflexivity|].
  split; [vm_compute; reflexivity|]. split; [vm_compute; reflexivity|]. split; [right; vm_compute; reflexivity|]. split; [right; vm_compute; reflexivity|].
  split; [vm_compute; reflexivity|]. intro E. apply Z.eqb_eq in E. vm_compute in E. discriminate E.
Qed.
Print Assumptions C100_orderly.
