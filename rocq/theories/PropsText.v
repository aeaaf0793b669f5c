(** * PropsText: C56 — the numbers in the XML output. *)
From Coq Require Import ZArith NArith List Bool String.
From Coq Require Import Floats.SpecFloat.
From Verif Require Import PyBase PyFloat Enums Ers Xml SpecNum SpecXml SpecText TextProofs.
Import List ListNotations.
Local Open Scope list_scope.
Local Open Scope Z_scope.

(** C56. The attributes of every record and of every error state the values of the record. *)
Theorem C56_attributes : forall (v : py_version) (r : rrec) (n : pstr) (atts : list (pstr * pstr)) (kids : list xml) (name s : pstr),
  record_elem v r = Elem n atts kids \/ error_elem v r = Elem n atts kids -> In (name, s) atts -> att_written v r name s.
Proof. exact elem_written. Qed.
Print Assumptions C56_attributes.

(** Only one text states an integer. *)
Theorem C56_numeral_unique : forall (n : Z) (s t : pstr), numeral n s -> numeral n t -> s = t.
Proof. exact numeral_unique. Qed.
Print Assumptions C56_numeral_unique.

(** 48.5 and -0.125 (a tie) with two decimals, and an index. *)
Example C56_example : fmt_2f (flit 485 10) = $"48.50" /\ fmt_2f (SFopp (flit 125 1000)) = $"-0.12" /\ str_of_Z (-10) = $"-10" /\
  rounds_even (100 * 125) 1000 12 /\ ~ rounds_even (100 * 125) 1000 13 /\ numeral 10 ($"10") /\ ~ numeral 10 ($"010").
Proof.
  split; [vm_compute; reflexivity|]. split; [vm_compute; reflexivity|]. split; [vm_compute; reflexivity|].
  split; [split; [vm_compute; discriminate|reflexivity]|].
  split; [intros [_ H]; discriminate (H eq_refl)|].
  split; [|intros (_ & _ & _ & H); discriminate (H eq_refl)].
  split; [|split; [|split]]; [intros c [<- |[<- |[]]]; vm_compute; split; discriminate|discriminate|reflexivity|discriminate].
Qed.
