(** * RefileClimb: speed, level and target of a cruise climb as elements (lemmas behind PropsRefile). *)
From Coq Require Import ZArith NArith List Bool String Lia.
From Coq Require Import ZifyBool ZifyNat ZifyN.
From Verif Require Import PyBase PyFloat Enums ErrorTable Regex SpecRegex RegexProofs SyntaxTable Syntax SyntaxProofs Tokenizer Ers Utils Parser.
From Verif Require Import SpecTokenizer TokenizerProofs SpecNum ParserPrims PerfEq PointEq Trace SpecParser ParserInv SpecGrammar GrammarSem Grammar SpecAccept Describe AcceptFacts SpecViable Viable SpecRemoval Removal Split InForce SpecRefile RefileWords.
Import List ListNotations.
Local Open Scope list_scope.
Local Open Scope nat_scope.

(** What the parser keeps of a target: PLUS, a level, or the digits of a level. *)
Definition target (c : pstr) : Prop := c = $"PLUS" \/ (a_level c /\ fl_ok c) \/ exists l, a_level (l :: c).
Definition is_climb_tok (t : token) : Prop := t_base t = F15_SPEED_ALTITUDE_ALTITUDE \/ t_base t = F15_SPEED_ALTITUDE_PLUS.
Definition kept (t : token) : pstr := match t_base t with F15_SPEED_ALTITUDE_PLUS => second_level (t_text t) | _ => stored_target (t_text t) end.

Lemma level_chars l : a_level l -> exists c ds, l = c :: ds /\ In c level_letters /\ ds <> [] /\ forallb is_digit ds = true /\ length ds = if is_feet c then 3 else 4.
Proof.
  intros (sh & Hi & H). vm_compute in Hi. repeat (destruct Hi as [<-|Hi]); try contradiction;
    repeat match goal with K : shape_in _ _ |- _ => inversion K; clear K; subst | K : Forall2 _ (_ :: _) _ |- _ => inversion K; clear K; subst | K : Forall2 _ [] _ |- _ => inversion K; clear K; subst end;
    repeat match goal with K : in_ranges _ [(?a, ?a)] = true |- _ => apply char_is in K; subst end; unfold in_ranges in *; cbn in *.
  all: eexists; eexists; (split; [reflexivity|]); (split; [cbn; tauto|]); (split; [discriminate|]); (split; [cbn; unfold is_digit; lia|reflexivity]).
Qed.
Lemma digits_level c ds : In c level_letters -> forallb is_digit ds = true -> length ds = (if is_feet c then 3 else 4) -> a_level (c :: ds).
Proof.
  intros Hc Hd Hl.
  assert (R : forall ds, forallb is_digit ds = true -> shape_in (repeat [(48, 57)]%N (length ds)) ds).
  { clear. induction ds as [|d ds IH]; intro H; [constructor|]. cbn [forallb length repeat] in *. apply andb_true_iff in H as [H1 H2]. constructor; [|now apply IH].
    unfold is_digit in H1. unfold in_ranges. cbn. lia. }
  specialize (R ds Hd). rewrite Hl in R. destruct Hc as [<-|[<-|[<-|[<-|[]]]]]; cbn in R;
    (eexists; split; [|constructor; [|exact R]; match goal with |- in_ranges ?c _ = true => instantiate (1 := [(c, c)]); reflexivity end]); vm_compute; tauto.
Qed.
Lemma letter_target c : target c -> c <> $"PLUS" -> a_level (with_letter c) /\ hd 0%N (with_letter c) <> 80%N.
Proof.
  intros [H|[[H _]|(l & H)]] N; [contradiction| |].
  - destruct (level_chars c H) as (x & ds & -> & Hx & _). unfold with_letter. replace (is_digit x) with false by (destruct Hx as [<-|[<-|[<-|[<-|[]]]]]; reflexivity).
    split; [exact H|]. cbn [hd]. destruct Hx as [<-|[<-|[<-|[<-|[]]]]]; discriminate.
  - destruct (level_chars _ H) as (x & ds & E & Hx & Nd & Hd & Hl). injection E as -> ->. destruct ds as [|d ds]; [contradiction|]. unfold with_letter.
    assert (D : is_digit d = true) by (cbn [forallb] in Hd; now apply andb_true_iff in Hd). rewrite D.
    rewrite Hl. destruct (is_feet x); cbn [Nat.eqb hd]; (split; [|discriminate]); (apply digits_level; [cbn; tauto|exact Hd|exact Hl]).
Qed.
Lemma letter_first c : target c -> exists x r, with_letter c = x :: r /\ is_digit x = false.
Proof.
  intro H. assert (D : c = $"PLUS" \/ c <> $"PLUS") by (destruct (pstr_eqb c ($"PLUS")) eqn:E; [left; now apply pstr_eqb_eq|right; intros ->; discriminate E]).
  destruct D as [->|N]; [eexists; eexists; split; reflexivity|]. destruct (letter_target c H N) as [A _]. destruct (level_chars _ A) as (x & ds & E & Hx & _). exists x, ds. split; [exact E|].
  destruct Hx as [<-|[<-|[<-|[<-|[]]]]]; reflexivity.
Qed.
(** An element with two levels that does not make the parser raise. *)
Lemma saa_text s : fst (classify s) = F15_SPEED_ALTITUDE_ALTITUDE -> raising_text s \/ exists x y z, s = x ++ y ++ z /\ a_speed x /\ a_level y /\ a_level z.
Proof.
  intro H. unfold classify in H. destruct (_ <? _)%Z; [discriminate H|]. apply saa_exact in H as [H _].
  assert (Hd4 : forall u, re_in (digits 4) u -> all_digits u /\ zlen u = 4%Z).
  { intros u Hu. apply (expand_spec (digits 4) eq_refl) in Hu as (sh & Hi & Hu). vm_compute in Hi. destruct Hi as [<-|[]].
    repeat match goal with K : shape_in _ _ |- _ => inversion K; clear K; subst | K : Forall2 _ (_ :: _) _ |- _ => inversion K; clear K; subst | K : Forall2 _ [] _ |- _ => inversion K; clear K; subst end.
    unfold in_ranges in *. cbn in *. split; [|reflexivity]. intros d Hd. cbn in Hd. repeat (destruct Hd as [<-|Hd]; [lia|]). destruct Hd. }
  assert (Lit : forall c u, re_in (lit1 c) u -> u = [c]).
  { intros c u Hu. inversion Hu as [|rs a b d Hin Ha Hb| | | |]; subst. destruct Hin as [E|[]]. injection E as <- <-. f_equal. lia. }
  assert (Seq : forall r1 r2 u, re_in (RSeq r1 r2) u -> exists u1 u2, u = u1 ++ u2 /\ re_in r1 u1 /\ re_in r2 u2) by (intros r1 r2 u Hu; inversion Hu; subst; eauto).
  assert (Alt : forall r1 r2 u, re_in (RAlt r1 r2) u -> re_in r1 u \/ re_in r2 u) by (intros r1 r2 u Hu; inversion Hu; subst; auto).
  apply Alt in H as [H|H].
  - right. apply Seq in H as (x & u & -> & Hx & H). apply Seq in H as (y & z & -> & Hy & Hz). exists x, y, z. split; [reflexivity|].
    split; [now apply (expand_spec speed eq_refl)|]. split; now apply (expand_spec level eq_refl).
  - left. assert (K : exists c, (c = 83%N \/ c = 77%N) /\ re_in (lit1 78 +++ digits 4 +++ lit1 65 +++ digits 4 +++ lit1 c +++ digits 4) s).
    { apply Alt in H as [H|H]; [exists 83%N|exists 77%N]; (split; [auto|exact H]). }
    clear H. destruct K as (c & Hc & H). apply Seq in H as (u1 & v1 & -> & H1 & H). apply Seq in H as (u2 & v2 & -> & H2 & H). apply Seq in H as (u3 & v3 & -> & H3 & H).
    apply Seq in H as (u4 & v4 & -> & H4 & H). apply Seq in H as (u5 & v5 & -> & H5 & H6). apply Lit in H1, H3, H5. subst. apply Hd4 in H2, H4, H6.
    exists u2, u4, v5, c. split; [reflexivity|]. tauto.
Qed.
Lemma two_levels x y z : a_speed x -> a_level y -> a_level z -> speed_part (x ++ y ++ z) = x /\ first_level (x ++ y ++ z) = y /\ second_level (x ++ y ++ z) = z.
Proof.
  intros Hx Hy Hz. destruct (speed_fits x (y ++ z) Hx) as (E1 & E2 & _). destruct (level_fits y z Hy) as (E3 & _). unfold first_level, second_level. rewrite E2. split; [exact E1|]. split; [exact E3|].
  assert (E : y ++ z = y ++ skipn (level_len (y ++ z)) (y ++ z)) by (rewrite <- E3 at 2; symmetry; apply firstn_skipn). apply app_inv_head in E. now symmetry.
Qed.
Lemma stored_kind s z : second_level s = z -> a_level z -> (target_checked s -> fl_ok z) -> (full_target s = true -> target_checked s) -> target (stored_target s).
Proof.
  intros E Hz K F. unfold stored_target. rewrite E. destruct (full_target s) eqn:Ef; [right; left; auto|]. right. right. destruct (level_chars z Hz) as (c & ds & -> & _). exists c. exact Hz.
Qed.
Lemma full_checked s : full_target s = true -> target_checked s.
Proof.
  unfold full_target, target_checked. destruct s as [|c s]; [discriminate|]. destruct (after_speed (c :: s)) as [|d r]; [discriminate|]. intro H. apply andb_true_iff in H as [H1 H2]. split; [|exact H2].
  intros ->. discriminate H1.
Qed.
Lemma checked_full s : target_checked s -> full_target s = true.
Proof.
  unfold full_target, target_checked. destruct s as [|c s]; [tauto|]. destruct (after_speed (c :: s)) as [|d r]; [tauto|]. intros [H1 H2]. rewrite H2. destruct (N.eqb_spec c 77); [contradiction|reflexivity].
Qed.
Lemma kept_target t : wt t -> is_climb_tok t -> levels_ok t -> target (kept t) /\ (kept t = $"PLUS" <-> t_base t = F15_SPEED_ALTITUDE_PLUS).
Proof.
  intros W [B|B] L; unfold kept; rewrite B.
  - unfold levels_ok in L. rewrite B in L. destruct L as (_ & L2 & L3). assert (Hc : fst (classify (t_text t)) = F15_SPEED_ALTITUDE_ALTITUDE) by (unfold wt in W; now rewrite W).
    destruct (saa_text _ Hc) as [R|(x & y & z & E & Hx & Hy & Hz)]; [contradiction|]. destruct (two_levels x y z Hx Hy Hz) as (E1 & E2 & E3). rewrite <- E in E1, E2, E3. rewrite E3 in L2.
    pose proof (stored_kind _ _ E3 Hz L2 (full_checked _)) as T. split; [exact T|]. split; [|discriminate]. intro K. exfalso. unfold stored_target in K. rewrite E3 in K.
    destruct (level_chars z Hz) as (c & ds & -> & Hx' & Nd & Hd & _). destruct (full_target _); [injection K as -> _; destruct Hx' as [K|[K|[K|[K|[]]]]]; discriminate K|].
    cbn [skipn] in K. subst ds. discriminate Hd.
  - rewrite (plus_text t W B). split; [now left|tauto].
Qed.
Lemma climb_parts t : wt t -> is_climb_tok t -> a_speed (speed_part (t_text t)) /\ a_level (first_level (t_text t)).
Proof. intros W H. apply (mod_pieces t (speed_part (t_text t), first_level (t_text t)) W). unfold modifier. cbn [fst snd]. now destruct H as [-> | ->]. Qed.
Lemma climb_fl t : is_climb_tok t -> levels_ok t -> fl_ok (first_level (t_text t)).
Proof. unfold levels_ok. intros [-> | ->]; tauto. Qed.
(** The record after a cruise climb depends on speed, level and what is kept of the target. *)
Lemma copy_twice q q' p : copy_perf q (copy_perf q' p) = copy_perf q p. Proof. destruct q, q', p; reflexivity. Qed.
Lemma climb_same t t' q p : wt t -> is_climb_tok t -> wt t' -> is_climb_tok t' -> t_base t = t_base t' -> kept t = kept t' ->
  copy_perf q (climb_eff t p) = copy_perf q (climb_eff t' p).
Proof.
  intros W C W' C' B K. unfold kept in K. unfold climb_eff. rewrite <- B in *. destruct C as [C|C]; rewrite C in *.
  - destruct (saa_perf t p W C) as (a & b & c & -> & _ & _ & E). destruct (saa_perf t' p W' (eq_sym B)) as (a' & b' & c' & -> & _ & _ & E'). rewrite E, E' in K.
    unfold saa_rec. rewrite K. destruct q, p; reflexivity.
  - destruct (sap_perf t p W C) as (a & b & -> & _ & _ & E). destruct (sap_perf t' p W' (eq_sym B)) as (a' & b' & -> & _ & _ & E'). rewrite E, E' in K.
    unfold sap_rec. rewrite K. destruct q, p; reflexivity.
Qed.
Lemma climb_cto t p : wt t -> is_climb_tok t -> r_cto (climb_eff t p) = kept t.
Proof.
  intros W [C|C]; unfold climb_eff, kept; rewrite C.
  - destruct (saa_perf t p W C) as (a & b & c & -> & _ & _ & ->). reflexivity.
  - destruct (sap_perf t p W C) as (a & b & -> & _ & _ & ->). reflexivity.
Qed.
Lemma climb_rules t p : wt t -> is_climb_tok t -> r_rules (climb_eff t p) = RULE_I.
Proof.
  intros W [C|C]; unfold climb_eff; rewrite C.
  - destruct (saa_perf t p W C) as (a & b & c & -> & _). reflexivity.
  - destruct (sap_perf t p W C) as (a & b & -> & _). reflexivity.
Qed.

(** ** The words of a cruise climb *)
Lemma wt_base w : t_base (first_token w) = fst (classify w). Proof. reflexivity. Qed.
Lemma target_clean c : target c -> clean (with_letter c).
Proof.
  intro H. destruct (pstr_eqb c ($"PLUS")) eqn:E; [apply pstr_eqb_eq in E; subst c; split; [discriminate|vm_compute; reflexivity]|].
  apply level_clean. apply letter_target; [exact H|]. intros ->. discriminate E.
Qed.
(** Speed, level and target in one element. *)
Lemma fits_token x y c : a_speed x -> a_level y -> fl_ok y -> target c -> climb_fits (x ++ y ++ with_letter c) c = true ->
  let t := first_token (x ++ y ++ with_letter c) in
  tok_ok t /\ is_climb_tok t /\ levels_ok t /\ kept t = c /\ speed_part (t_text t) = x /\ first_level (t_text t) = y.
Proof.
  intros Hx Hy Hf Hc F t. set (w := x ++ y ++ with_letter c) in *.
  destruct (speed_fits x (y ++ with_letter c) Hx) as (E1 & E2 & _). destruct (level_fits y (with_letter c) Hy) as (E3 & _).
  assert (E4 : first_level w = y) by (unfold first_level, w; now rewrite E2).
  assert (E5 : second_level w = with_letter c).
  { unfold second_level, w. rewrite E2. assert (E : y ++ with_letter c = y ++ skipn (level_len (y ++ with_letter c)) (y ++ with_letter c)) by (rewrite <- E3 at 2; symmetry; apply firstn_skipn). apply app_inv_head in E. now symmetry. }
  assert (Ok : tok_ok t) by (apply first_ok, clean_one; repeat apply clean_app; [now apply speed_clean|now apply level_clean|now apply target_clean]).
  assert (C : (fst (classify w) = F15_SPEED_ALTITUDE_PLUS /\ c = $"PLUS") \/ (fst (classify w) = F15_SPEED_ALTITUDE_ALTITUDE /\ stored_target w = c)).
  { unfold climb_fits in F. destruct (fst (classify w)); try discriminate F; [right|left]; (split; [reflexivity|now apply pstr_eqb_eq]). }
  split; [exact Ok|]. destruct C as [[C Ec]|[C Ec]].
  - split; [right; exact C|]. split; [unfold levels_ok; change (t_base t) with (fst (classify w)); rewrite C; change (t_text t) with w; now rewrite E4|].
    split; [|split; [exact E1|exact E4]]. unfold kept. change (t_base t) with (fst (classify w)); rewrite C. change (t_text t) with w. rewrite E5, Ec. reflexivity.
  - split; [left; exact C|]. split; [|split; [|split; [exact E1|exact E4]]].
    + unfold levels_ok. change (t_base t) with (fst (classify w)); rewrite C. change (t_text t) with w. rewrite E4. split; [exact Hf|]. split.
      * intro K. apply checked_full in K. unfold stored_target in Ec. rewrite K in Ec. rewrite Ec. destruct Hc as [->|[[_ H]|(l & H)]]; [intro Q; discriminate Q|exact H|].
        destruct (level_chars _ H) as (d & ds & E & _ & Nd & Hd & _). injection E as -> ->. destruct ds as [|e ds]; [contradiction|]. intros ->. discriminate Hd.
      * intros (a & b & e & d & E & Hd & D1 & D2 & D3 & Z1 & Z2 & Z3).
        unfold zlen in Z1, Z2. destruct a as [|a1 [|a2 [|a3 [|a4 [|]]]]]; cbn [length] in Z1; try lia. destruct b as [|b1 [|b2 [|b3 [|b4 [|]]]]]; cbn [length] in Z2; try lia.
        cbn [app] in E. assert (As : after_speed w = 65%N :: b1 :: b2 :: b3 :: b4 :: d :: e) by (rewrite E; reflexivity).
        assert (S5 : second_level w = b4 :: d :: e) by (unfold second_level; rewrite As; reflexivity). rewrite E5 in S5.
        destruct (letter_first c Hc) as (u & r & Eu & Du). rewrite S5 in Eu. injection Eu as <- _. specialize (D2 b4 ltac:(cbn; tauto)). unfold is_digit in Du. lia.
    + unfold kept. change (t_base t) with (fst (classify w)); rewrite C. exact Ec.
Qed.
(** Some element with the target. *)
Definition some_climb (c : pstr) : pstr := (match c with d :: _ => if is_digit d then $"M000F000" else $"N0000F000" | [] => [] end) ++ with_letter c.
Lemma zero_n : a_speed ($"N0000") /\ a_speed ($"M000") /\ a_level ($"F000").
Proof. repeat split; apply expand_spec; try reflexivity; apply fullmatch_spec; vm_compute; reflexivity. Qed.
Lemma saa_class x z : (x = $"N0000" \/ x = $"M000") -> a_level z -> fst (classify (x ++ $"F000" ++ z)) = F15_SPEED_ALTITUDE_ALTITUDE.
Proof.
  intros Hx Hz. destruct zero_n as (Z1 & Z2 & Z3). assert (Ax : a_speed x) by (destruct Hx as [-> | ->]; assumption).
  destruct (level_fits z [] Hz) as (_ & Lz). unfold classify. replace (_ <? _)%Z with false.
  - apply saa_exact. split.
    + apply lang_alt_l. apply lang_seq; [now apply (expand_spec speed eq_refl)|]. apply lang_seq; apply (expand_spec level eq_refl); assumption.
    + intro K. assert (Seq : forall r1 r2 u, re_in (RSeq r1 r2) u -> exists u1 u2, u = u1 ++ u2 /\ re_in r1 u1 /\ re_in r2 u2) by (intros r1 r2 u Hu; inversion Hu; subst; eauto).
      assert (Alt : forall r1 r2 u, re_in (RAlt r1 r2) u -> re_in r1 u \/ re_in r2 u) by (intros r1 r2 u Hu; inversion Hu; subst; auto).
      assert (Lit : forall c u, re_in (lit1 c) u -> u = [c]).
      { intros c u Hu. inversion Hu as [|rs a b d Hin Ha Hb| | | |]; subst. destruct Hin as [E|[]]. injection E as <- <-. f_equal. lia. }
      assert (K' : exists r, re_in (lit1 78 +++ digits 4 +++ lit1 65 +++ r) (x ++ $"F000" ++ z)) by (apply Alt in K as [K|K]; eexists; exact K).
      clear K. destruct K' as (r & K). apply Seq in K as (u1 & v1 & E & H1 & K). apply Seq in K as (u2 & v2 & -> & H2 & K). apply Seq in K as (u3 & v3 & -> & H3 & _). apply Lit in H1, H3. subst u1 u3.
      assert (L4 : length u2 = 4). { apply (expand_spec (digits 4) eq_refl) in H2 as (sh & Hi & H2). vm_compute in Hi. destruct Hi as [<-|[]]. now rewrite <- (Forall2_len _ _ _ H2). }
      destruct u2 as [|a1 [|a2 [|a3 [|a4 [|]]]]]; cbn [length] in L4; try lia. destruct Hx as [-> | ->]; cbn in E; discriminate E.
  - symmetry. apply Z.ltb_ge. unfold zlen. rewrite !app_length. unfold max_token_length. destruct Hx as [-> | ->]; cbn; lia.
Qed.
Lemma some_token c : target c ->
  let t := first_token (some_climb c) in tok_ok t /\ is_climb_tok t /\ levels_ok t /\ kept t = c.
Proof.
  intros Hc t. destruct (pstr_eqb c ($"PLUS")) eqn:E.
  - apply pstr_eqb_eq in E. subst c. split; [split; [apply first_wt|reflexivity]|]. split; [right; vm_compute; reflexivity|]. split; [|vm_compute; reflexivity].
    unfold levels_ok. replace (t_base t) with F15_SPEED_ALTITUDE_PLUS by (symmetry; vm_compute; reflexivity). vm_compute. reflexivity.
  - assert (N : c <> $"PLUS") by (intros ->; discriminate E). destruct (letter_target c Hc N) as (Hz & _). destruct zero_n as (Z1 & Z2 & Z3).
    assert (Q : exists x, some_climb c = x ++ $"F000" ++ with_letter c /\ (x = $"N0000" \/ x = $"M000") /\ a_speed x /\ (if hd 0%N c =? 0 then False else True)%N).
    { unfold some_climb. destruct Hc as [->|[[H _]|(l & H)]]; [contradiction| |].
      - destruct (level_chars _ H) as (d & ds & -> & Hd & _). exists ($"N0000"). replace (is_digit d) with false by (destruct Hd as [<-|[<-|[<-|[<-|[]]]]]; reflexivity). split; [reflexivity|]. split; [auto|]. split; [exact Z1|]. destruct Hd as [<-|[<-|[<-|[<-|[]]]]]; exact I.
      - destruct (level_chars _ H) as (d & ds & E' & _ & Nd & Hd & _). injection E' as -> ->. destruct ds as [|e ds]; [contradiction|]. exists ($"M000").
        assert (D : is_digit e = true) by (cbn [forallb] in Hd; now apply andb_true_iff in Hd). rewrite D. split; [reflexivity|]. split; [auto|]. split; [exact Z2|]. cbn [hd]. destruct (N.eqb_spec e 0); [subst; discriminate D|exact I]. }
    destruct Q as (x & Ew & Hx & Ax & _). pose proof (saa_class x _ Hx Hz) as B. rewrite <- Ew in B. destruct (two_levels x ($"F000") _ Ax Z3 Hz) as (E1 & E2 & E3). rewrite <- Ew in E1, E2, E3.
    split; [apply first_ok, clean_one; rewrite Ew; repeat apply clean_app; [now apply speed_clean|now apply level_clean|now apply level_clean]|].
    split; [left; exact B|].
    assert (St : stored_target (some_climb c) = c).
    { unfold stored_target. rewrite E3. unfold full_target. unfold some_climb in *. destruct Hc as [->|[[H _]|(l & H)]]; [contradiction| |].
      - destruct (level_chars _ H) as (d & ds & -> & Hd & _). assert (Dd : is_digit d = false) by (destruct Hd as [<-|[<-|[<-|[<-|[]]]]]; reflexivity). rewrite Dd.
        unfold with_letter. rewrite Dd. reflexivity.
      - destruct (level_chars _ H) as (d & ds & E' & _ & Nd & Hd & _). injection E' as -> ->. destruct ds as [|e ds]; [contradiction|].
        assert (D : is_digit e = true) by (cbn [forallb] in Hd; now apply andb_true_iff in Hd). unfold with_letter. rewrite D. reflexivity. }
    split; [|unfold kept; change (t_base t) with (fst (classify (some_climb c))); rewrite B; exact St].
    unfold levels_ok. change (t_base t) with (fst (classify (some_climb c))); rewrite B. change (t_text t) with (some_climb c). rewrite E2. split; [intros _; reflexivity|]. split.
    + intro K. apply checked_full in K. unfold stored_target in St. rewrite K in St. rewrite St. destruct Hc as [->|[[_ H]|(l & H)]]; [contradiction|exact H|].
      destruct (level_chars _ H) as (d & ds & E' & _ & Nd & Hd & _). injection E' as -> ->. destruct ds as [|e ds]; [contradiction|]. intros ->. discriminate Hd.
    + intros (a & b & e & d & E' & _ & _ & _ & _ & Z1' & _). unfold zlen in Z1'. destruct a as [|a1 [|a2 [|a3 [|a4 [|]]]]]; cbn [length] in Z1'; try lia. rewrite Ew in E'. destruct Hx as [-> | ->]; discriminate E'.
Qed.
