(** * Mirror: the result for the mirror image of a field. *)
From Coq Require Import ZArith NArith List Bool String Lia ZifyBool ZifyNat ZifyN.
From Coq Require Import Floats.SpecFloat.
From Verif Require Import RegexProofs.
From Verif Require Import PyBase PyFloat Enums SyntaxTable Syntax Tokenizer Ers Utils Parser SpecRegex SpecNum SpecParser SpecGrammar SpecAccept SpecDiagnosis SpecReader SpecComplete SpecRename SpecFlow SpecBearings SpecOrder SpecMirror.
From Verif Require Import TokenizerProofs SyntaxProofs PerfEq Describe FloatProofs PointEq Reader ReaderFacts CompleteFacts Flow Writing Bearings.
From Verif Require Rename.
Import List ListNotations.
Local Open Scope list_scope.
Local Open Scope Z_scope.

Lemma swap_digit a b c : (58 <= a)%N -> (58 <= b)%N -> is_digit c = true -> swap a b c = c.
Proof. unfold is_digit, swap. intros A B H. destruct (N.eqb_spec c a); [lia|]. destruct (N.eqb_spec c b); lia. Qed.
Definition flip (x : line) (c : N) : N := match x with Equator => swap 78 83 c | Meridian => swap 69 87 c end.
Lemma mirror_flip x s : mirror x s = map (flip x) s.
Proof. destruct x; reflexivity. Qed.
Lemma flip_digit x c : is_digit c = true -> flip x c = c.
Proof. intro H. destruct x; apply swap_digit; try exact H; lia. Qed.
Lemma flip_ns x c : hemi_ns c -> hemi_ns (flip x c) /\ N.eqb (flip x c) 83 = match x with Equator => negb (N.eqb c 83) | Meridian => N.eqb c 83 end.
Proof. intros [->| ->]; destruct x; split; try reflexivity; vm_compute; auto. Qed.
Lemma flip_ew x c : hemi_ew c -> hemi_ew (flip x c) /\ N.eqb (flip x c) 87 = match x with Equator => N.eqb c 87 | Meridian => negb (N.eqb c 87) end.
Proof. intros [->| ->]; destruct x; split; try reflexivity; vm_compute; auto. Qed.
Ltac digits H := cbn [forallb] in H; rewrite !andb_true_iff in H.
Ltac flips x := repeat match goal with |- context[flip x ?c] => rewrite (flip_digit x c) by tauto end.
Lemma mirror_deg x s : deg_text s [] -> deg_text (mirror x s) [].
Proof.
  rewrite mirror_flip. intros (d1 & d2 & h & g1 & g2 & g3 & e & -> & A & Hh & He). cbn [map]. exists d1, d2, (flip x h), g1, g2, g3, (flip x e). pose proof A as B. digits B.
  flips x. split; [reflexivity|]. split; [exact A|]. split; [now apply flip_ns|now apply flip_ew].
Qed.
Lemma mirror_min x s : min_text s [] -> min_text (mirror x s) [].
Proof.
  rewrite mirror_flip. intros (d1 & d2 & m1 & m2 & h & g1 & g2 & g3 & n1 & n2 & e & -> & A & Hh & He). cbn [map]. exists d1, d2, m1, m2, (flip x h), g1, g2, g3, n1, n2, (flip x e). pose proof A as B. digits B.
  flips x. split; [reflexivity|]. split; [exact A|]. split; [now apply flip_ns|now apply flip_ew].
Qed.
Lemma digits_all l : forallb is_digit l = true -> all_digits l.
Proof. intros H c Hc. rewrite forallb_forall in H. specialize (H c Hc). unfold is_digit in H. lia. Qed.
Lemma ns_re h : hemi_ns h -> re_in (one_of "NS") [h].
Proof. intros [->| ->]; [apply (lang_class _ 78%N 78%N)|apply (lang_class _ 83%N 83%N)]; cbn; auto; lia. Qed.
Lemma ew_re h : hemi_ew h -> re_in (one_of "EW") [h].
Proof. intros [->| ->]; [apply (lang_class _ 69%N 69%N)|apply (lang_class _ 87%N 87%N)]; cbn; auto; lia. Qed.
Lemma deg_classify s : deg_text s [] -> classify s = (F15_POINT, F15_SB_LL_DEG).
Proof.
  intros (d1 & d2 & h & g1 & g2 & g3 & e & -> & A & Hh & He). rewrite (proj1 (proj2 (classify_spec _))) by (vm_compute; discriminate). apply type_deg.
  change [d1; d2; h; g1; g2; g3; e] with ([d1; d2] ++ [h] ++ [g1; g2; g3] ++ [e]). digits A.
  constructor; [apply digits_in; split; [apply digits_all; cbn [forallb]; rewrite !andb_true_iff; tauto|reflexivity]|]. constructor; [now apply ns_re|].
  constructor; [apply digits_in; split; [apply digits_all; cbn [forallb]; rewrite !andb_true_iff; tauto|reflexivity]|now apply ew_re].
Qed.
Lemma min_classify s : min_text s [] -> classify s = (F15_POINT, F15_SB_LL_MIN).
Proof.
  intros (d1 & d2 & m1 & m2 & h & g1 & g2 & g3 & n1 & n2 & e & -> & A & Hh & He). rewrite (proj1 (proj2 (classify_spec _))) by (vm_compute; discriminate). apply type_min.
  change [d1; d2; m1; m2; h; g1; g2; g3; n1; n2; e] with ([d1; d2; m1; m2] ++ [h] ++ [g1; g2; g3; n1; n2] ++ [e]). digits A.
  constructor; [apply digits_in; split; [apply digits_all; cbn [forallb]; rewrite !andb_true_iff; tauto|reflexivity]|]. constructor; [now apply ns_re|].
  constructor; [apply digits_in; split; [apply digits_all; cbn [forallb]; rewrite !andb_true_iff; tauto|reflexivity]|now apply ew_re].
Qed.
(** ** The elements *)
Lemma image_facts x t u : wt t -> wt u -> image x t u ->
  t_base u = t_base t /\ t_sub u = t_sub t /\ angle_faults u = angle_faults t /\ (t_base t <> F15_POINT -> t_text u = t_text t).
Proof.
  intros Wt Wu H. unfold image, given_position in H.
  assert (Same : t_text u = t_text t -> t_base u = t_base t /\ t_sub u = t_sub t /\ angle_faults u = angle_faults t /\ (t_base t <> F15_POINT -> t_text u = t_text t)).
  { intro E. destruct (same_text t u Wt Wu (eq_sym E)) as [B S]. repeat split; try (symmetry; assumption); [|auto]. unfold angle_faults. now rewrite E, S. }
  destruct (t_sub t) eqn:Es; try (apply Same; exact H); clear Same.
  - pose proof (ll_deg_text t Wt Es) as T. pose proof (deg_classify _ T) as C. pose proof (mirror_deg x _ T) as T'. pose proof (deg_classify _ T') as C'.
    unfold wt in Wt, Wu. rewrite C in Wt. rewrite H, C' in Wu. injection Wt as Bt _. injection Wu as Bu Su. rewrite <- Bt, <- Bu, <- Su. repeat split; [|intro X; contradiction X; reflexivity].
    unfold angle_faults. rewrite <- Su, Es, H. cbv zeta. destruct T as (d1 & d2 & h & g1 & g2 & g3 & e & -> & A & _). digits A. rewrite mirror_flip. cbn [map]. flips x. reflexivity.
  - pose proof (ll_min_text t Wt Es) as T. pose proof (min_classify _ T) as C. pose proof (mirror_min x _ T) as T'. pose proof (min_classify _ T') as C'.
    unfold wt in Wt, Wu. rewrite C in Wt. rewrite H, C' in Wu. injection Wt as Bt _. injection Wu as Bu Su. rewrite <- Bt, <- Bu, <- Su. repeat split; [|intro X; contradiction X; reflexivity].
    unfold angle_faults. rewrite <- Su, Es, H. cbv zeta. destruct T as (d1 & d2 & m1 & m2 & h & g1 & g2 & g3 & n1 & n2 & e & -> & A & _). digits A. rewrite mirror_flip. cbn [map]. flips x. reflexivity.
Qed.
Lemma mirrored_opposite x f g : mirrored x f g -> Forall2 (opposite f g) (field_tokens f) (field_tokens g).
Proof.
  unfold mirrored, opposite. intro F.
  assert (K : forall a b pa pb, Forall2 (image x) a b -> List.length pa = List.length pb -> Forall2 (fun t u => exists n, nth_error (pa ++ a) n = Some t /\ nth_error (pb ++ b) n = Some u) a b).
  { clear. intros a b pa pb F. revert pa pb. induction F as [|t u a b A F IH]; intros pa pb L; [constructor|]. constructor.
    - exists (List.length pa). split; [|rewrite L]; rewrite nth_error_app2, Nat.sub_diag by lia; reflexivity.
    - specialize (IH (pa ++ [t]) (pb ++ [u])). rewrite !app_length, <- !app_assoc in IH. apply IH. now rewrite L. }
  exact (K _ _ [] [] F eq_refl).
Qed.
Lemma opposite_image x f g t u : mirrored x f g -> opposite f g t u -> image x t u.
Proof.
  unfold mirrored, opposite. intros F (n & A & B). revert n A B. induction F as [|a b l m H F IH]; intros [|n] A B; try discriminate; cbn in A, B; [injection A as <-; injection B as <-; exact H|eauto].
Qed.

(** ** The records *)
Section G.
Variable G : geodesic.
(** All but the coordinates and the legs. *)
Lemma mirror_shape x depth f g : mirrored x f g -> field_tokens f <> [] -> (3 * n_tokens f <= depth + 1)%nat ->
  match parse_field15 G depth f, parse_field15 G depth g with
  | Ok a s, Ok b z =>
      a = b /\ Forall2 (fun r q => same_shape (opposite f g) r q /\ same_performance r q /\ same_stay r q) (e_recs (s_ers s)) (e_recs (s_ers z)) /\
      Forall2 (same_report (opposite f g)) (e_errs (s_ers s)) (e_errs (s_ers z)) /\ e_rules (s_ers s) = e_rules (s_ers z) /\
      exists l m, e_recs (s_ers s) = route_of G l /\ e_recs (s_ers z) = route_of G m /\
        Forall2 (fun i j => i_located j = i_located i /\ (i_located i = true -> exists t u, opposite f g t u /\ has_coordinates (t_sub t) = true /\ i_name i = t_text t /\ i_name j = t_text u)) l m
  | Exn a _, Exn b _ => a = b
  | _, _ => False
  end.
Proof.
  intros F N D. pose proof (mirrored_opposite x f g F) as O.
  assert (N' : field_tokens g <> []) by (intro X; rewrite X in O; inversion O as [X1|]; congruence).
  assert (D' : (3 * n_tokens g <= depth + 1)%nat) by (pose proof (Rename.F2_length _ _ _ F) as L; unfold field_tokens in L; rewrite !map_length in L; unfold n_tokens in *; rewrite <- L || rewrite L; exact D).
  set (Q := opposite f g) in *.
  assert (W1 : forall t u, Q t u -> wt t) by (intros t u H; apply (opposite_wt f g t u H)).
  assert (W2 : forall t u, Q t u -> wt u) by (intros t u H; apply (opposite_wt f g t u H)).
  assert (Im : forall t u, Q t u -> t_base u = t_base t /\ t_sub u = t_sub t /\ angle_faults u = angle_faults t /\ (t_base t <> F15_POINT -> t_text u = t_text t)).
  { intros t u H. apply (image_facts x); eauto. now apply (opposite_image x f g). }
  assert (Np : forall t u, Q t u -> t_base t <> F15_POINT -> t_text u = t_text t) by (intros t u H; apply (Im t u H)).
  assert (H1 : forall t u, Q t u -> t_base u = t_base t) by (intros t u H; apply (Im t u H)).
  assert (H2 : forall t u, Q t u -> kin_sub (t_base t) (t_sub t) (t_sub u)) by (intros t u H; left; apply (Im t u H)).
  assert (H3 : forall t u, Q t u -> t_text t <> [] /\ t_text u <> []) by (intros t u H; destruct (opposite_wt f g t u H) as [[_ X] [_ Y]]; now split).
  assert (H4 : forall t u, Q t u -> t_base t = F15_SID_STAR -> (t_text t <> $"SID" /\ t_text t <> $"STAR") /\ t_text u <> $"SID" /\ t_text u <> $"STAR").
  { intros t u H B. pose proof H as (n & X & Y). apply nth_error_In in X, Y. split; [now apply (Rename.field_proc f t X)|]. apply (Rename.field_proc g u Y). rewrite (H1 t u H). exact B. }
  assert (H5 : forall t u, Q t u -> t_base t = F15_SID \/ t_base t = F15_STAR -> t_text u = t_text t) by (intros t u H [B|B]; apply (Np t u H); rewrite B; discriminate).
  assert (H6 : forall t u, Q t u -> angle_faults u = angle_faults t) by (intros t u H; apply (Im t u H)).
  assert (Sp : forall t u, Q t u -> speed_base (t_base t) = true -> t_text u = t_text t /\ t_sub u = t_sub t).
  { intros t u H B. split; [apply (Np t u H); destruct (t_base t); discriminate|apply (Im t u H)]. }
  assert (H7 : forall t u, Q t u -> speed_base (t_base t) = true -> t_base t <> F15_SPEED_VFR -> level_faults u = level_faults t /\ unconvertible u = unconvertible t).
  { intros t u H B _. destruct (Sp t u H B) as [E E2]. unfold level_faults, unconvertible. rewrite E, E2, (H1 t u H). now split. }
  assert (H8 : True -> forall t u, Q t u -> speed_base (t_base t) = true -> t_text u = t_text t /\ t_sub u = t_sub t) by (intros _; exact Sp).
  pose (RC := fun a b : pstr => exists t u, Q t u /\ has_coordinates (t_sub t) = true /\ a = t_text t /\ b = t_text u).
  assert (H9 : forall t u, Q t u -> has_coordinates (t_sub t) = true -> RC (t_text t) (t_text u)) by (intros t u H B; now exists t, u).
  assert (H10 : True -> forall t u, Q t u -> t_base t = F15_STAY_TIME -> t_text u = t_text t) by (intros _ t u H B; apply (Np t u H); rewrite B; discriminate).
  pose (RV := fun _ _ _ _ : pstr => True). pose (RT := fun (_ : pstr) (_ : pynum) (_ : pstr) (_ : pynum) => True).
  pose proof (reading_same Q True True RV RT RC Logic.I Logic.I H1 H2 H3 H4 H5 H6 H7 H8 H9 H10 ltac:(intros; exact Logic.I) ltac:(intros; exact Logic.I) ltac:(intros; exact Logic.I) ltac:(intros; exact Logic.I) _ _ O) as Rd.
  pose proof (complete_total G depth f N D) as A. pose proof (complete_total G depth g N' D') as B.
  destruct (reading (field_tokens f)) as [[l e|]|] eqn:Ef, (reading (field_tokens g)) as [[m h|]|] eqn:Eg; try contradiction.
  - destruct A as (s & A1 & A2), B as (z & B1 & B2). destruct (whole_result G depth f _ s N A1) as (l1 & e1 & R1 & _ & R2 & _).
    destruct (whole_result G depth g _ z N' B1) as (m1 & h1 & T1 & _ & T2 & _). rewrite Ef in R1. rewrite Eg in T1. injection R1 as <- <-. injection T1 as <- <-.
    rewrite A1, B1. destruct Rd as [K1 K2]. pose proof (route_same G Q True False True RV RT RC ltac:(contradiction) l m K1) as Rt.
    split; [destruct K2; reflexivity|]. split.
    { rewrite A2, B2. cbn [ers_of e_recs]. apply (F2_split _ _ _ _ (fun r q (Z : K Q True False True RV RT r q) => conj (proj1 Z) (conj (proj1 (proj2 Z) Logic.I) (proj1 (proj2 (proj2 (proj2 Z))) Logic.I))) Rt). }
    split; [exact (Rename.reports_same _ _ _ _ _ K2 R2 T2)|]. split.
    { rewrite A2, B2; symmetry; eapply letter_same; eassumption. }
    exists l, m. split; [now rewrite A2|]. split; [now rewrite B2|]. apply (F2_split _ _ _ _ (fun i j (Z : I Q True True RV RT RC i j) => conj (I_loc _ _ _ _ _ _ _ _ Z) (I_name _ _ _ _ _ _ _ _ Z)) K1).
  - destruct A as (s & A), B as (z & B). now rewrite A, B.
Qed.
(** The values of the coordinates. *)
Lemma stored_text s : deg_text s [] \/ min_text s [] -> 
  value (fst (coordinates G s)) = minus_if (southern s) (fv (dm (lat_degrees s) (lat_minutes s))) /\
  value (snd (coordinates G s)) = minus_if (western s) (fv (dm (lon_degrees s) (lon_minutes s))).
Proof.
  intros [T|T].
  - destruct T as (d1 & d2 & h & g1 & g2 & g3 & e & -> & A & _). cbn [forallb] in A.
    assert (A1 : forallb is_digit [d1; d2] = true) by (cbn [forallb]; repeat rewrite andb_true_iff in *; tauto). assert (A2 : forallb is_digit [g1; g2; g3] = true) by (cbn [forallb]; repeat rewrite andb_true_iff in *; tauto).
    pose proof (digits2 _ _ A1). pose proof (digits3 _ _ _ A2).
    change (lat_degrees _) with (decimal [d1; d2]). change (lat_minutes _) with 0. change (lon_degrees _) with (decimal [g1; g2; g3]). change (lon_minutes _) with 0. rewrite <- !hemi_value by lia. rewrite !dm_whole by lia. split; reflexivity.
  - destruct T as (d1 & d2 & m1 & m2 & h & g1 & g2 & g3 & n1 & n2 & e & -> & A & _). cbn [forallb] in A.
    assert (A1 : forallb is_digit [d1; d2] = true) by (cbn [forallb]; repeat rewrite andb_true_iff in *; tauto). assert (A2 : forallb is_digit [g1; g2; g3] = true) by (cbn [forallb]; repeat rewrite andb_true_iff in *; tauto).
    assert (A3 : forallb is_digit [m1; m2] = true) by (cbn [forallb]; repeat rewrite andb_true_iff in *; tauto). assert (A4 : forallb is_digit [n1; n2] = true) by (cbn [forallb]; repeat rewrite andb_true_iff in *; tauto).
    pose proof (digits2 _ _ A1). pose proof (digits3 _ _ _ A2). pose proof (digits2 _ _ A3). pose proof (digits2 _ _ A4).
    change (lat_degrees _) with (decimal [d1; d2]). change (lat_minutes _) with (decimal [m1; m2]). change (lon_degrees _) with (decimal [g1; g2; g3]). change (lon_minutes _) with (decimal [n1; n2]).
    rewrite <- !hemi_value by lia. split; reflexivity.
Qed.
Lemma minus_negb b n : minus_if (negb b) n = - minus_if b n.
Proof. destruct b; cbn; lia. Qed.
Lemma across_text x s : deg_text s [] \/ min_text s [] -> across x (coordinates G s) (coordinates G (mirror x s)).
Proof.
  intro T. assert (T' : deg_text (mirror x s) [] \/ min_text (mirror x s) []) by (destruct T; [left; now apply mirror_deg|right; now apply mirror_min]).
  destruct (stored_text s T) as [A B], (stored_text _ T') as [A' B']. clear T'. unfold across. rewrite A, B, A', B'. clear A B A' B'.
  assert (E : lat_degrees (mirror x s) = lat_degrees s /\ lat_minutes (mirror x s) = lat_minutes s /\ lon_degrees (mirror x s) = lon_degrees s /\ lon_minutes (mirror x s) = lon_minutes s /\
    southern (mirror x s) = (match x with Equator => negb (southern s) | Meridian => southern s end) /\
    western (mirror x s) = (match x with Equator => western s | Meridian => negb (western s) end)).
  { rewrite mirror_flip. destruct T as [(d1 & d2 & h & g1 & g2 & g3 & e & -> & D & Hh & He)|(d1 & d2 & m1 & m2 & h & g1 & g2 & g3 & n1 & n2 & e & -> & D & Hh & He)];
    digits D; cbn [map]; flips x; (repeat split; [apply (flip_ns x h Hh)|apply (flip_ew x e He)]). }
  destruct E as (-> & -> & -> & -> & -> & ->). destruct x; rewrite minus_negb; split; reflexivity.
Qed.
(** Records with coordinates correspond, and are opposite. *)
Definition M (x : line) (r q : rrec) : Prop := r_llv q = r_llv r /\ (r_llv r = true -> across x (place r) (place q)).
Lemma leg_kept r rest : let q := with_leg G r rest in r_llv q = r_llv r /\ r_lat q = r_lat r /\ r_lon q = r_lon r.
Proof. unfold with_leg. destruct (if r_llv r then _ else _); repeat split. Qed.
Lemma next_M x rest rest' : Forall2 (M x) rest rest' ->
  match next_located rest, next_located rest' with Some p, Some q => across x (place p) (place q) | None, None => True | _, _ => False end.
Proof.
  intro F. unfold next_located. destruct F as [|p q l m [A B] F]; [exact Logic.I|]. rewrite A. destruct (r_llv p); [now apply B|].
  destruct F as [|p' q' l m [A' B'] F]; [exact Logic.I|]. rewrite A'. destruct (r_llv p'); [now apply B'|exact Logic.I].
Qed.
Lemma leg_M x r q rest rest' : M x r q -> Forall2 (M x) rest rest' -> r_dist r = r_dist q ->
  M x (with_leg G r rest) (with_leg G q rest') /\ (symmetric x G -> r_dist (with_leg G r rest) = r_dist (with_leg G q rest')).
Proof.
  intros [A B] F D. split.
  - unfold M, place. destruct (leg_kept r rest) as (-> & -> & ->), (leg_kept q rest') as (-> & -> & ->). now split.
  - intro S. pose proof (next_M x rest rest' F) as N. unfold with_leg. rewrite A. destruct (r_llv r) eqn:V; [|exact D].
    destruct (next_located rest) as [p|], (next_located rest') as [p'|]; try contradiction; [|exact D]. cbv zeta. exact (S (place r) (place q) (place p) (place p') (B eq_refl) N).
Qed.
Lemma with_legs_M x l m : Forall2 (fun r q => M x r q /\ r_dist r = r_dist q) l m ->
  Forall2 (fun r q => M x r q /\ (symmetric x G -> r_dist r = r_dist q)) (with_legs G l) (with_legs G m).
Proof.
  intro F. induction F as [|r q l m [A D] F IH]; cbn [with_legs]; constructor; [|exact IH]. apply leg_M; [exact A| |exact D].
  apply (F2_split _ _ _ _ (fun a b Z => proj1 Z) F).
Qed.
Lemma mirror_image x depth f g : mirrored x f g -> no_offsets f -> field_tokens f <> [] -> (3 * n_tokens f <= depth + 1)%nat ->
  match parse_field15 G depth f, parse_field15 G depth g with
  | Ok a s, Ok b z =>
      a = b /\ e_rules (s_ers s) = e_rules (s_ers z) /\ Forall2 (same_report (opposite f g)) (e_errs (s_ers s)) (e_errs (s_ers z)) /\
      Forall2 (fun r q => same_shape (opposite f g) r q /\ same_performance r q /\ same_stay r q) (e_recs (s_ers s)) (e_recs (s_ers z)) /\
      Forall2 (fun r q => r_llv r = true -> across x (place r) (place q)) (e_recs (s_ers s)) (e_recs (s_ers z)) /\
      (symmetric x G -> Forall2 (fun r q => r_dist r = r_dist q) (e_recs (s_ers s)) (e_recs (s_ers z)))
  | Exn a _, Exn b _ => a = b
  | _, _ => False
  end.
Proof.
  intros F O N D. pose proof (mirror_shape x depth f g F N D) as H. destruct (parse_field15 G depth f) as [a s|], (parse_field15 G depth g) as [b z|]; try exact H.
  destruct H as (H1 & H2 & H3 & H4 & l & m & El & Em & K).
  assert (Z : Forall2 (fun r q => M x r q /\ (symmetric x G -> r_dist r = r_dist q)) (e_recs (s_ers s)) (e_recs (s_ers z))).
  { rewrite El, Em. apply with_legs_M. clear - K F O. induction K as [|i j l m [A B] K IH]; cbn [map]; constructor; [|exact IH]. split; [|reflexivity]. split; [exact A|]. intro V. change (i_located i = true) in V.
    unfold place. cbn [record_of r_lat r_lon]. rewrite A, V. destruct (B V) as (t & u & Q & C & -> & ->). destruct (opposite_wt f g t u Q) as [[W _] _].
    pose proof (opposite_image x f g t u F Q) as Im. destruct Q as (n & Q & _). apply nth_error_In in Q. destruct (O t Q) as [O1 O2]. unfold image, given_position in Im.
    assert (T : deg_text (t_text t) [] \/ min_text (t_text t) []) by (destruct (t_sub t) eqn:Es; try discriminate C; try congruence; [left; now apply ll_deg_text|right; now apply ll_min_text]).
    assert (E : t_text u = mirror x (t_text t)) by (destruct (t_sub t); try discriminate C; try congruence). rewrite E, <- !surjective_pairing. now apply across_text. }
  repeat split; try assumption.
  - apply (F2_split _ _ _ _ (fun r q (X : M x r q /\ _) => proj2 (proj1 X)) Z).
  - intro S. apply (F2_split _ _ _ _ (fun r q (X : M x r q /\ _) => proj2 X S) Z).
Qed.
End G.
