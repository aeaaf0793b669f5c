(** * PropsCapitals: C104 — only capital letters and figures count. *)
From Coq Require Import ZArith NArith List Bool String.
From Verif Require Import PyBase PyFloat Enums Syntax Tokenizer Ers Utils Parser SpecTokenizer SpecParser SpecGrammar SpecAccept SpecLayout SpecViable PropsParser SpecCapitals Capitals.
Import List ListNotations.
Local Open Scope list_scope.
Local Open Scope nat_scope.

(** C104. Outside the texts of sections the elements of an accepted field consist of capital letters, figures and slashes. *)
Theorem C104_capitals_partial : forall (G : geodesic) (depth : nat) (f : pstr) (s : st),
  parse_field15 G depth f = Ok true s -> forall t, In (t, ROut) (field_roles f) -> Forall plain (t_text t).
Proof. exact outside. Qed.
Print Assumptions C104_capitals_partial.
(** The first character of an accepted field that is not a separator is K, M or N. *)
Theorem C104_first : forall (G : geodesic) (depth : nat) (f : pstr) (s : st),
  parse_field15 G depth f = Ok true s -> exists c x rest, element_texts f = (c :: x) :: rest /\ (c = 75 \/ c = 77 \/ c = 78)%N.
Proof. exact first_letter. Qed.
Print Assumptions C104_first.
(** No field in small letters is accepted. *)
Theorem C104_lower : forall (G : geodesic) (depth : nat) (f : pstr) (s : st), parse_field15 G depth (lower f) <> Ok true s.
Proof. exact lowered. Qed.
Print Assumptions C104_lower.

Example C104_example :
  exists s, parse_field15 flat 60 ($"N0450F350 ABC OAT small letters GAT DEF") = Ok true s /\
    (exists t, In (t, ROut) (field_roles ($"N0450F350 ABC OAT small letters GAT DEF")) /\ t_text t = $"DEF") /\
    lower ($"N0450F350 ABC OAT small") = $"n0450f350 abc oat small".
Proof.
  eexists. split; [vm_compute; reflexivity|]. split; [|vm_compute; reflexivity].
  exists (last (field_tokens ($"N0450F350 ABC OAT small letters GAT DEF")) (new_token [] 0 0)). vm_compute. split; [|reflexivity]. repeat first [left; reflexivity|right].
Qed.
(** The element after C/ may be written in small letters, or in any characters. *)
Theorem C104_capitals_refuted : exists (G : geodesic) (depth : nat) (f : pstr) (s : st) (t : token),
  parse_field15 G depth f = Ok true s /\ In t (field_tokens f) /\ ~ In (t, RText) (field_roles f) /\ ~ Forall plain (t_text t).
Proof.
  exists flat, 100, ($"N0450F350 DCT C/abc/N0450F350F400"). eexists. exists (nth 4 (field_tokens ($"N0450F350 DCT C/abc/N0450F350F400")) (new_token [] 0 0)).
  split; [vm_compute; reflexivity|]. split; [vm_compute; auto 10|]. split; [vm_compute; intro H; repeat (destruct H as [H|H]; [discriminate|]); exact H|].
  vm_compute. intro H. apply Forall_inv in H. unfold plain, capital, figure in H. destruct H as [[_ H]|[[_ H]|H]]; [now apply H|now apply H|discriminate].
Qed.
Print Assumptions C104_capitals_refuted.
