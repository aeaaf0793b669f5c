(** * PropsGrammar: the properties of accepted fields. *)
From Coq Require Import ZArith NArith List Bool String.
From Verif Require Import PyBase PyFloat Enums ErrorTable Tokenizer Ers Utils Parser SpecNum SpecParser SpecGrammar Accept Unambiguous.
From Verif Require Import PropsParser.
Import List ListNotations.
Local Open Scope list_scope.
Local Open Scope nat_scope.

(** C24: the accepted fields are the sentences of the grammar. *)
Theorem C24_accepted_language : forall (G : geodesic) (depth : nat) (field : pstr), 3 * n_tokens field <= depth + 1 ->
  ((exists s, parse_field15 G depth field = Ok true s) <-> sentence (field_tokens field)).
Proof. exact accepts_iff. Qed.
Print Assumptions C24_accepted_language.

(** Whatever the recursion limit, only sentences are accepted. *)
Theorem C24_only_sentences : forall (G : geodesic) (depth : nat) (field : pstr) (s : st),
  parse_field15 G depth field = Ok true s -> sentence (field_tokens field).
Proof. exact accepted_sentence. Qed.
Print Assumptions C24_only_sentences.

(** A field has only one derivation: it can be read in one way. *)
Theorem C24_unambiguous : forall ss ss' : list step, derives XStart ss -> derives XStart ss' -> yield ss = yield ss' -> ss = ss'.
Proof. intros ss ss'. exact (derives_unique ss ss' XStart). Qed.
Print Assumptions C24_unambiguous.

(** An accepted field with its derivation, and two rejected fields. *)
Definition short_route : pstr := $"N0450F350 DCT PNT/M084F370 VFR ABC IFR XYZ/N0430F330 STAR".
Example C24_example_in : 3 * n_tokens short_route <= 100 + 1 /\ (exists s, parse_field15 flat 100 short_route = Ok true s) /\
  exists a b c d e f g h i j k l, derives XStart [SFirst a; SDct b; SPoint c; SSpeed d e; SBreak f; SText [g; h]; SPoint i; SSpeed j k; SStar l] /\
    [a; b; c; d; e; f; g; h; i; j; k; l] = field_tokens short_route.
Proof.
  split; [vm_compute; repeat constructor|]. split; [eexists; vm_compute; reflexivity|].
  set (ts := field_tokens short_route). vm_compute in ts.
  do 12 eexists. split; [|subst ts; reflexivity]. cbn -[N.to_nat]. repeat match goal with |- _ /\ _ => split | |- _ <> _ => discriminate | |- _ -> _ => intro | |- _ => reflexivity end.
  all: try (left; reflexivity).
Qed.
Example C24_example_out : 3 * n_tokens ($"N0450F350 DCT") <= 100 + 1 /\
  sentence (field_tokens ($"N0450F350 DCT")) /\ ~ sentence (field_tokens ($"N0450F350 DCT L613")) /\ ~ sentence (field_tokens ($"N0450F352 DCT")).
Proof.
  split; [vm_compute; repeat constructor|]. split; [|split].
  - apply (accepted_sentence flat 100 _ (final (parse_field15 flat 100 ($"N0450F350 DCT")))). vm_compute. reflexivity.
  - intro H. apply (accepts_iff flat 100) in H; [|vm_compute; repeat constructor]. destruct H as [s H]. vm_compute in H. discriminate.
  - intro H. apply (accepts_iff flat 100) in H; [|vm_compute; repeat constructor]. destruct H as [s H]. vm_compute in H. discriminate.
Qed.
