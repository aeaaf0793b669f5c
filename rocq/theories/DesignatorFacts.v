(** * DesignatorFacts: proofs for PropsDesignators. *)
From Coq Require Import ZArith NArith List Bool String.
From Verif Require Import PyBase Enums Regex SyntaxTable Syntax Parser SpecRegex RegexProofs SyntaxProofs SpecDesignators.
Import List ListNotations.
Local Open Scope list_scope.
Local Open Scope nat_scope.

(** Row 38 of the table has this type too, but is unreachable (C12). *)
Lemma turkish_iff s : get_token_type s = (F15_ROUTE, F15_SB_ATS_TURK) <-> re_in turkish_route s.
Proof.
  set (dead := letter +++ digits 3 +++ letter).
  assert (T : get_token_type s = (F15_ROUTE, F15_SB_ATS_TURK) <-> re_in (RAlt turkish_route dead) s /\ ~ re_in dead s) by (apply type_iff; vm_compute; reflexivity).
  split.
  - intro H. apply T in H as [H1 H2]. inversion H1; subst; [assumption|contradiction].
  - intro H. apply is_types_spec. apply (incl_check_sound (is_types F15_ROUTE F15_SB_ATS_TURK) turkish_route); [reflexivity|vm_compute; reflexivity|exact H].
Qed.
Lemma recognised_iff s : fst (get_token_type s) <> F15_UNKNOWN <-> re_in SpecDesignators.recognised s /\ ~ re_in unclimb s.
Proof.
  set (P := fun T : types => negb (base_eqb (fst T) F15_UNKNOWN)).
  assert (E : fst (get_token_type s) <> F15_UNKNOWN <-> P (get_token_type s) = true).
  { unfold P. rewrite negb_true_iff, <- not_true_iff_false, base_eqb_eq. reflexivity. }
  rewrite E. split.
  - intro H. apply (check_fwd_concl P); [vm_compute; reflexivity..|exact H].
  - intros [H1 H2]. apply (minus_check_sound P SpecDesignators.recognised unclimb); try assumption; vm_compute; reflexivity.
Qed.
