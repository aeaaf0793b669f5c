(** * Writing: degrees with zero minutes are the same coordinates. *)
From Coq Require Import ZArith NArith List Bool String Lia ZifyBool ZifyNat ZifyN.
From Coq Require Import Floats.SpecFloat.
From Verif Require Import RegexProofs.
From Verif Require Import PyBase PyFloat Enums SyntaxTable Syntax Tokenizer Ers Utils Parser SpecRegex SpecNum SpecParser SpecGrammar SpecAccept SpecDiagnosis SpecReader SpecComplete SpecRename SpecFlow SpecWriting.
From Verif Require Import TokenizerProofs SyntaxProofs PerfEq Describe FloatProofs FloatRN Flow.
From Verif Require TextProofs.
Import List ListNotations.
Local Open Scope list_scope.
Local Open Scope Z_scope.

(** ** Numbers *)
Lemma plus_nothing d : 0 <= d < 2 ^ 53 -> fadd (f_of_Z d) (fdiv (f_of_Z 0) (f_of_Z 60)) = f_of_Z d.
Proof.
  intro H. assert (Z0 : fdiv (f_of_Z 0) (f_of_Z 60) = S754_zero false) by (vm_compute; reflexivity). rewrite Z0.
  destruct (Z.eq_dec d 0) as [ -> |N]; [vm_compute; reflexivity|]. destruct (f_of_Z_sv d H) as [A B].
  destruct (f_of_Z d) as [b|b| |b m e] eqn:E; try contradiction; [|reflexivity].
  exfalso. cbn [fv] in B. assert (0 < 2 ^ KS) by (apply Z.pow_pos_nonneg; [lia|vm_compute; discriminate]). nia.
Qed.
Lemma no_minutes d : all_digits d -> (List.length d <= 3)%nat -> and_minutes d ($"00") = whole d.
Proof.
  intros H L. unfold and_minutes, whole. change (decimal ($"00")) with 0. apply plus_nothing. pose proof (TextProofs.decimal_bounds d H) as B.
  assert (10 ^ Z.of_nat (Datatypes.length d) <= 10 ^ 3) by (apply Z.pow_le_mono_r; lia). change (10 ^ 3) with 1000 in *. change (2 ^ 53) with 9007199254740992. lia.
Qed.
Lemma over_same d mx : over_min d ($"00") mx = over d mx.
Proof. unfold over_min, over. change (decimal ($"00")) with 0. cbn [Z.leb]. change (60 <=? 0) with false. cbn [orb]. lia. Qed.

(** ** Types *)
Lemma digits_in k s : re_in (digits k) s <-> all_digits s /\ List.length s = k.
Proof.
  unfold digits, digit. split.
  - intro H. inversion H as [| | | | |r lo hi l [L1 L2] D]; subst. assert (L : Datatypes.length l = k) by lia. clear H L1 L2. subst k.
    induction l as [|a l IH]; [split; [intros c []|reflexivity]|].
    pose proof (D a (or_introl eq_refl)) as X. inversion X as [|rs x y c I1 I2 I3| | | |]; subst. destruct I1 as [I1|[]]. injection I1 as <- <-.
    destruct IH as [I4 I5]; [intros; apply D; now right|]. cbn [concat app]. split; [|cbn; now rewrite I5]. intros x [ <- |Hx]; [lia|now apply I4].
  - intros [D L]. assert (X : s = concat (map (fun c => [c]) s)) by (clear; induction s; [reflexivity|]; cbn; congruence). rewrite X.
    constructor; [rewrite map_length; lia|]. intros z Hz. apply in_map_iff in Hz as (c & <- & Hc). specialize (D c Hc). apply (lang_class _ 48%N 57%N); [now left|lia|lia].
Qed.
Lemma seq_in a b s : re_in (a +++ b) s <-> exists x y, s = x ++ y /\ re_in a x /\ re_in b y.
Proof. split; [intro H; inversion H; subst; eauto|]. intros (x & y & -> & A & B). now constructor. Qed.
Lemma one_in l s : re_in (one_of' l) s -> exists c, s = [c].
Proof. intro H. inversion H; subst. eauto. Qed.

Lemma type_deg s : get_token_type s = (F15_POINT, F15_SB_LL_DEG) <-> re_in lat_long_degrees s.
Proof. revert s. apply type_iff'; vm_compute; reflexivity. Qed.
Lemma type_min s : get_token_type s = (F15_POINT, F15_SB_LL_MIN) <-> re_in lat_long_minutes s.
Proof. revert s. apply type_iff'; vm_compute; reflexivity. Qed.
Lemma type_bd_deg s : get_token_type s = (F15_POINT, F15_SB_LLBD_DEG) <-> re_in (lat_long_degrees +++ bearing_distance) s.
Proof. revert s. apply type_iff'; vm_compute; reflexivity. Qed.
Lemma type_bd_min s : get_token_type s = (F15_POINT, F15_SB_LLBD_MIN) <-> re_in (lat_long_minutes +++ bearing_distance) s.
Proof. revert s. apply type_iff'; vm_compute; reflexivity. Qed.

Lemma app_eq {A} (a b c d : list A) : Datatypes.length a = Datatypes.length c -> a ++ b = c ++ d -> a = c /\ b = d.
Proof. revert c. induction a as [|x a IH]; intros [|y c] L E; try discriminate; [now split|]. cbn in L, E. injection E as -> E. destruct (IH c ltac:(lia) E). now subst. Qed.
(** What a text in degrees is made of, and that the one in minutes is well formed. *)
Lemma parts lat lon h v tail : List.length lat = 2%nat -> List.length lon = 3%nat ->
  forall x y, lat ++ [h] ++ lon ++ [v] ++ tail = x ++ y -> re_in lat_long_degrees x ->
  all_digits lat /\ all_digits lon /\ y = tail /\ re_in lat_long_minutes (lat ++ $"00" ++ [h] ++ lon ++ $"00" ++ [v]).
Proof.
  intros L1 L2 x y E H. unfold lat_long_degrees in H. apply seq_in in H as (a & b & -> & A & H). apply seq_in in H as (p & q & -> & B & H).
  apply seq_in in H as (c & d & -> & C & D). apply digits_in in A as [A1 A2]. apply digits_in in C as [C1 C2].
  destruct (one_in _ _ B) as [h' Eh], (one_in _ _ D) as [v' Ev]. subst p d.
  rewrite <- !app_assoc in E. apply app_eq in E as [-> E]; [|congruence]. apply app_eq in E as [Eh E]; [|reflexivity]. injection Eh as <-.
  apply app_eq in E as [-> E]; [|congruence]. apply app_eq in E as [Ev E]; [|reflexivity]. injection Ev as <-. subst y.
  assert (Z : forall d, all_digits d -> all_digits (d ++ $"00")) by (intros d Hd z Hz; apply in_app_iff in Hz as [Hz|Hz]; [now apply Hd|vm_compute in Hz; lia]).
  split; [exact A1|]. split; [exact C1|]. split; [reflexivity|]. unfold lat_long_minutes.
  replace (a ++ $"00" ++ [h] ++ c ++ $"00" ++ [v]) with ((a ++ $"00") ++ [h] ++ (c ++ $"00") ++ [v]) by (now rewrite <- !app_assoc).
  constructor; [apply digits_in; split; [now apply Z|rewrite app_length, A2; reflexivity]|]. constructor; [exact B|].
  constructor; [apply digits_in; split; [now apply Z|rewrite app_length, C2; reflexivity]|exact D].
Qed.

Section G.
Variable G : geodesic.
Lemma writing_facts t u : wt t -> wt u -> with_minutes t u ->
  t_base t = F15_POINT /\ t_base u = F15_POINT /\ has_coordinates (t_sub t) = true /\ has_coordinates (t_sub u) = true /\
  angle_faults t = [] /\ angle_faults u = [] /\ coordinates G (t_text u) = coordinates G (t_text t).
Proof.
  intros Wt Wu (Sb & An & lat & lon & tail & h & v & L1 & L2 & E1 & E2).
  assert (Hc : has_coordinates (t_sub t) = true) by (destruct Sb as [X|[X|[]]]; rewrite <- X; reflexivity).
  assert (Bt : t_base t = F15_POINT) by now apply coordinate_point.
  assert (Gt : get_token_type (t_text t) = (t_base t, t_sub t)).
  { rewrite <- (classify_get (t_text t)); [exact Wt|]. unfold wt in Wt. rewrite Wt. cbn. rewrite Bt. discriminate. }
  rewrite Bt in Gt. destruct lat as [|a [|b [|? ?]]]; try discriminate L1. destruct lon as [|c [|d [|e [|? ?]]]]; try discriminate L2.
  destruct Sb as [Sb|[Sb|[]]]; rewrite <- Sb in Gt.
  - apply type_deg in Gt. rewrite E1 in Gt. rewrite <- (app_nil_r ([a; b] ++ _)) in Gt.
    destruct (parts [a; b] [c; d; e] h v tail L1 L2 _ [] (eq_sym (app_nil_r _)) ltac:(rewrite <- app_nil_r; exact Gt)) as (D1 & D2 & T & M). subst tail.
    assert (Gu : get_token_type (t_text u) = (F15_POINT, F15_SB_LL_MIN)) by (apply type_min; rewrite E2, app_nil_r; exact M).
    assert (Cu : classify (t_text u) = (F15_POINT, F15_SB_LL_MIN)) by (rewrite <- Gu; apply classify_spec; rewrite E2; vm_compute; discriminate).
    unfold wt in Wu. rewrite Cu in Wu. injection Wu as Bu Su. rewrite <- Bu, <- Su.
    repeat split; try assumption.
    + unfold angle_faults in *. rewrite <- Su. rewrite <- Sb in An. cbv zeta in *. rewrite E2. rewrite E1 in An. unfold deg_faults, min_faults in *.
      change (sub_str _ 0 2) with [a; b] in *. change (sub_str _ 3 3) with [c; d; e] in An. change (sub_str _ 2 2) with ($"00"). change (sub_str _ 5 3) with [c; d; e]. change (sub_str _ 8 2) with ($"00").
      rewrite !over_same. destruct (over [a; b] 90); [discriminate An|]. destruct (over _ 180); [discriminate An|reflexivity].
    + rewrite E1, E2. unfold coordinates. cbn [Datatypes.length app of_str]. change (Datatypes.length (_ :: _ :: ($"00" ++ _))) with 11%nat. cbv iota.
      unfold in_degrees, in_minutes. change (sub_str _ 0 2) with [a; b]. change (sub_str _ 2 2) with ($"00").
      change (sub_str _ 5 3) with [c; d; e]. change (sub_str _ 8 2) with ($"00"). change (sub_str _ 3 3) with [c; d; e].
      rewrite !no_minutes by (try assumption; cbn; lia). reflexivity.
  - apply type_bd_deg in Gt. rewrite E1 in Gt. apply seq_in in Gt as (x & y & Exy & Hx & Hy).
    destruct (parts [a; b] [c; d; e] h v tail L1 L2 _ _ Exy Hx) as (D1 & D2 & T & M). subst y.
    assert (Lt : all_digits tail /\ List.length tail = 6%nat).
    { apply seq_in in Hy as (y1 & y2 & -> & Y1 & Y2). apply digits_in in Y1 as [Y1 Y3], Y2 as [Y2 Y4]. rewrite app_length, Y3, Y4. split; [|reflexivity]. intros z Hz. apply in_app_iff in Hz as [Hz|Hz]; auto. }
    destruct Lt as [Dt Lt]. do 6 (destruct tail as [|? tail]; [discriminate Lt|]). destruct tail; [|discriminate Lt].
    assert (Gu : get_token_type (t_text u) = (F15_POINT, F15_SB_LLBD_MIN)).
    { apply type_bd_min. rewrite E2. apply seq_in. eexists. eexists. split; [|split; [exact M|exact Hy]]. now rewrite <- !app_assoc. }
    assert (Cu : classify (t_text u) = (F15_POINT, F15_SB_LLBD_MIN)) by (rewrite <- Gu; apply classify_spec; rewrite E2; vm_compute; discriminate).
    unfold wt in Wu. rewrite Cu in Wu. injection Wu as Bu Su. rewrite <- Bu, <- Su.
    repeat split; try assumption.
    + unfold angle_faults in *. rewrite <- Su. rewrite <- Sb in An. cbv zeta in *. rewrite E2. rewrite E1 in An. apply app_eq_nil in An as [An An'].
      unfold brg_faults, bearing_part in *. change (sub_str _ _ 3) with [n; n0; n1]. change (sub_str _ _ 3) with [n; n0; n1] in An'. rewrite An'. rewrite app_nil_r. unfold deg_faults, min_faults in *.
      change (sub_str _ 0 2) with [a; b] in *. change (sub_str _ 3 3) with [c; d; e] in An. change (sub_str _ 2 2) with ($"00"). change (sub_str _ 5 3) with [c; d; e]. change (sub_str _ 8 2) with ($"00").
      rewrite !over_same. destruct (over [a; b] 90); [discriminate An|]. destruct (over _ 180); [discriminate An|reflexivity].
    + rewrite E1, E2. unfold coordinates. change (Datatypes.length (_ ++ $"00" ++ _)) with 17%nat. change (Datatypes.length _) with 13%nat. cbv iota.
      unfold at_bearing, in_degrees, in_minutes. change (sub_str _ 0 2) with [a; b]. change (sub_str _ 2 2) with ($"00").
      change (sub_str _ 5 3) with [c; d; e]. change (sub_str _ 8 2) with ($"00"). change (sub_str _ 3 3) with [c; d; e].
      rewrite !no_minutes by (try assumption; cbn; lia). reflexivity.
Qed.
Lemma writing_counter t u : wt t -> wt u -> other_writing t u -> counterpart t u /\ coordinates G (t_text t) = coordinates G (t_text u) /\ (is_speed t \/ is_stay t -> t_text t = t_text u).
Proof.
  assert (A : forall t u, wt t -> wt u -> with_minutes t u -> (counterpart t u /\ counterpart u t) /\ coordinates G (t_text t) = coordinates G (t_text u) /\ t_base t = F15_POINT /\ t_base u = F15_POINT).
  { intros x y Wx Wy H. destruct (writing_facts x y Wx Wy H) as (B1 & B2 & C1 & C2 & A1 & A2 & E). unfold counterpart, figures_in_order. rewrite B1, B2.
    apply coordinate_sub in C1, C2. repeat split; auto. }
  intros Wt Wu [H|[H|H]].
  - destruct (same_text t u Wt Wu H) as [H1 H2]. rewrite H. split; [|now split]. repeat split; auto.
  - destruct (A t u Wt Wu H) as ([C _] & E & B & _). split; [exact C|]. split; [exact E|]. unfold is_speed, is_stay. rewrite B. intros [X|X]; [|discriminate]. cbn in X. intuition discriminate.
  - destruct (A u t Wu Wt H) as ([_ C] & E & _ & B). split; [exact C|]. split; [now symmetry|]. unfold is_speed, is_stay. rewrite B. intros [X|X]; [|discriminate]. cbn in X. intuition discriminate.
Qed.
Lemma opposite_writing f g t u : same_but_writing f g -> opposite f g t u -> other_writing t u.
Proof.
  unfold same_but_writing, opposite. intros F (n & A & B). revert n A B. induction F as [|x y a b H F IH]; intros [|n] A B; try discriminate; cbn in A, B; [congruence|eauto].
Qed.
Lemma same_structure_writing f g : same_but_writing f g -> same_structure f g.
Proof.
  unfold same_but_writing, same_structure. intro F. pose proof (field_wt f) as X. pose proof (field_wt g) as Y.
  induction F as [|t u l m A F IH]; [constructor|]. inversion X as [|? ? [X1 _] X2]; inversion Y as [|? ? [Y1 _] Y2]; subst. constructor; [now apply (writing_counter t u X1 Y1)|auto].
Qed.
Lemma F2_both {A B} (Q R : A -> B -> Prop) l m : Forall2 Q l m -> Forall2 R l m -> Forall2 (fun a b => Q a b /\ R a b) l m.
Proof. intros F. induction F; intro Z; inversion Z; subst; constructor; auto. Qed.
Local Open Scope nat_scope.
Lemma writing depth f g : same_but_writing f g -> field_tokens f <> [] -> 3 * n_tokens f <= depth + 1 ->
  match parse_field15 G depth f, parse_field15 G depth g with
  | Ok a s, Ok b z =>
      a = b /\ Forall2 (written_otherwise (opposite f g)) (e_recs (s_ers s)) (e_recs (s_ers z)) /\
      Forall2 (same_report (opposite f g)) (e_errs (s_ers s)) (e_errs (s_ers z)) /\ e_rules (s_ers s) = e_rules (s_ers z)
  | Exn x _, Exn y _ => x = y
  | _, _ => False
  end.
Proof.
  intros F N D. pose proof (flow_coordinates G depth f g (same_structure_writing f g F) N D) as X.
  destruct (parse_field15 G depth f) as [a s|], (parse_field15 G depth g) as [b z|]; try exact X.
  assert (K : forall t u, opposite f g t u -> counterpart t u /\ coordinates G (t_text t) = coordinates G (t_text u) /\ (is_speed t \/ is_stay t -> t_text t = t_text u)).
  { intros t u O. destruct (opposite_wt f g t u O) as [[Wt _] [Wu _]]. apply writing_counter; try assumption. now apply (opposite_writing f g). }
  destruct X as (X1 & X2 & X3 & X4 & X5 & _ & X6 & X7). split; [exact X1|]. split; [|now split].
  apply (F2_both _ _ _ _ X2), F2_both; [|apply F2_both]; [apply X5|apply X6|apply X7]; intros t u O H; apply (K t u O); auto.
Qed.
End G.

(** A test. *)
Definition degb (sb : sub_type) : bool := match sb with F15_SB_LL_DEG | F15_SB_LLBD_DEG => true | _ => false end.
Definition with_minutesb (t u : token) : bool :=
  degb (t_sub t) && nilb (angle_faults t) && (7 <=? List.length (t_text t))%nat &&
  pstr_eqb (t_text u) (firstn 2 (t_text t) ++ $"00" ++ firstn 1 (skipn 2 (t_text t)) ++ firstn 3 (skipn 3 (t_text t)) ++ $"00" ++ skipn 6 (t_text t)).
Definition other_writingb (t u : token) : bool := pstr_eqb (t_text t) (t_text u) || with_minutesb t u || with_minutesb u t.
Fixpoint all_writing (l m : list token) : bool :=
  match l, m with [], [] => true | t :: l', u :: m' => other_writingb t u && all_writing l' m' | _, _ => false end.
Lemma with_minutes_test t u : with_minutesb t u = true -> with_minutes t u.
Proof.
  unfold with_minutesb, with_minutes. rewrite !andb_true_iff. intros [[[A B] C] D]. split; [destruct (t_sub t); try discriminate A; cbn; tauto|].
  split; [destruct (angle_faults t); [reflexivity|discriminate B]|]. apply pstr_eqb_eq in D. apply Nat.leb_le in C.
  destruct (t_text t) as [|a [|b [|c [|d [|e [|f [|g r]]]]]]]; cbn in C; try lia. rewrite D. exists [a; b], [d; e; f], r, c, g. repeat split.
Qed.
Lemma same_but_writing_test f g : all_writing (field_tokens f) (field_tokens g) = true -> same_but_writing f g.
Proof.
  unfold same_but_writing. generalize (field_tokens f) (field_tokens g). induction l as [|t l IH]; intros [|u m] H; try discriminate; [constructor|].
  cbn [all_writing] in H. apply andb_true_iff in H as [H1 H2]. constructor; [|now apply IH]. unfold other_writingb in H1. apply orb_true_iff in H1 as [H1|H1]; [apply orb_true_iff in H1 as [H1|H1]|].
  - left. now apply pstr_eqb_eq.
  - right. left. now apply with_minutes_test.
  - right. right. now apply with_minutes_test.
Qed.
