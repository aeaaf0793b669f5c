(** * PropsMessages: the messages of the error table.

    Only theorems that are claimed in MANIFEST.json, and examples for them. *)
From Coq Require Import ZArith NArith List Bool String.
From Verif Require Import PyBase Enums ErrorTable Tokenizer Ers Utils Parser SpecParser SpecMessages Messages PropsParser.
Import List ListNotations.
Local Open Scope list_scope.
Local Open Scope nat_scope.

(** C102: the text of an error record and its element tell the number of the message. *)
Theorem C102_message : forall (G : geodesic) (depth : nat) (field : pstr) (b : bool) (s : st) (x : rrec),
  parse_field15 G depth field = Ok b s -> In x (e_errs (s_ers s)) -> exists m, In m in_use /\ says m x /\ forall n, says n x -> n = m.
Proof. exact message_of. Qed.
Print Assumptions C102_message.

(** The messages that some field gives are exactly those of [in_use]. *)
Theorem C102_in_use_partial : forall m : Z,
  In m in_use <-> exists G depth field b s x, parse_field15 G depth field = Ok b s /\ In x (e_errs (s_ers s)) /\ says m x.
Proof. exact exactly_in_use. Qed.
Print Assumptions C102_in_use_partial.

(** The text contains the text of the element, but for three messages. *)
Theorem C102_element_partial : forall (G : geodesic) (depth : nat) (field : pstr) (b : bool) (s : st) (x : rrec),
  parse_field15 G depth field = Ok b s -> In x (e_errs (s_ers s)) ->
  (exists before after, r_err x = before ++ r_name x ++ after) \/ says 38 x \/ says 41 x \/ says 49 x.
Proof. exact element_shown. Qed.
Print Assumptions C102_element_partial.

(** Not every message of the table can occur. *)
Theorem C102_all_in_use_refuted : exists (m : Z) (text : pstr), error_message m = Some text /\ text <> [] /\
  ~ exists G depth field b s x, parse_field15 G depth field = Ok b s /\ In x (e_errs (s_ers s)) /\ says m x.
Proof.
  exists 17%Z. eexists. split; [reflexivity|]. split; [discriminate|]. intro H. apply C102_in_use_partial in H. cbn in H. repeat (destruct H as [H|H]; [discriminate|]). exact H.
Qed.
Print Assumptions C102_all_in_use_refuted.

Example C102_example : exists s x, parse_field15 flat 100 ($"N0450F350 PNT UL9 STAR") = Ok false s /\ In x (e_errs (s_ers s)) /\ says 54 x /\
  r_err x = $"Add APF between previous ATS route and STAR 'STAR'".
Proof. eexists. eexists. split; [vm_compute; reflexivity|]. split; [left; reflexivity|]. split; [eexists; split; reflexivity|reflexivity]. Qed.
Example C102_not_shown : exists s x, parse_field15 flat 100 ($"N0450F350 PNT STAY1/ABC") = Ok false s /\ In x (e_errs (s_ers s)) /\ says 38 x.
Proof. eexists. eexists. split; [vm_compute; reflexivity|]. split; [left; reflexivity|]. eexists. split; reflexivity. Qed.
