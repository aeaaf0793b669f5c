(** * TextProofs: decimal numerals. *)
From Coq Require Import ZArith NArith List Bool String Lia.
From Coq Require Import Floats.SpecFloat.
From Coq Require Import ZifyBool ZifyNat ZifyN.
From Verif Require Import PyBase PyFloat Enums Ers Xml SpecNum SpecXml SpecText.
Import List ListNotations.
Local Open Scope list_scope.
Local Open Scope Z_scope.

Lemma decimal_app s c : decimal (s ++ [c]) = 10 * decimal s + (Z.of_N c - 48).
Proof. unfold decimal. now rewrite fold_left_app. Qed.
Lemma digits_app s t : all_digits s -> all_digits t -> all_digits (s ++ t).
Proof. intros H1 H2 c Hc. apply in_app_or in Hc as [H|H]; auto. Qed.
(** The digits of [n], most significant first. *)
Lemma nat_digits_spec : forall fuel n acc, (n < 2 ^ N.of_nat fuel)%N -> (0 < N.of_nat fuel)%N ->
  exists t, nat_digits fuel n acc = t ++ acc /\ numeral (Z.of_N n) t.
Proof.
  induction fuel as [|fuel IH]; intros n acc Hn Hf; [lia|]. cbn [nat_digits]. 
  pose proof (N.div_mod n 10 ltac:(lia)) as D. pose proof (N.mod_lt n 10 ltac:(lia)) as M.
  set (q := (n / 10)%N) in *. set (d := (n mod 10)%N) in *. clearbody q d.
  assert (Dg : (48 <= 48 + d <= 57)%N) by lia.
  destruct (N.eqb q 0) eqn:E.
  - exists [(48 + d)%N]. split; [reflexivity|]. assert (q = 0)%N by lia. subst q. split; [|split; [|split]].
    + intros c [<-|[]]. exact Dg.
    + intro X. discriminate.
    + change (decimal [(48 + d)%N]) with (10 * 0 + (Z.of_N (48 + d) - 48)). lia.
    + cbn [hd_error]. intro X. assert (Y : (48 + d)%N = 48%N) by congruence. now rewrite Y.
  - assert (Hq : (q < 2 ^ N.of_nat fuel)%N).
    { rewrite Nat2N.inj_succ, N.pow_succ_r' in Hn. lia. }
    destruct fuel as [|fuel']. { change (2 ^ N.of_nat 0)%N with 1%N in Hq. lia. }
    destruct (IH q ((48 + d)%N :: acc) Hq ltac:(lia)) as (t & Et & T1 & T2 & T3 & T4).
    exists (t ++ [(48 + d)%N]). split; [rewrite Et, <- app_assoc; reflexivity|]. split; [|split; [|split]].
    + apply digits_app; [exact T1|]. intros c [<-|[]]. exact Dg.
    + destruct t; intro X; discriminate.
    + rewrite decimal_app, T3. lia.
    + intro X. destruct t as [|c t]; [contradiction|]. cbn [hd_error app] in X. 
      assert (hd_error (c :: t) = Some 48%N) as Y by exact X. apply T4 in Y. rewrite Y in T3. change (decimal [48%N]) with 0 in T3. lia.
Qed.
Lemma str_of_N_spec n : numeral (Z.of_N n) (str_of_N n).
Proof.
  unfold str_of_N. destruct (nat_digits_spec (S (N.to_nat (N.log2 n))) n []) as (t & E & H).
  - rewrite Nat2N.inj_succ, N2Nat.id. destruct (N.eq_dec n 0) as [->|Hn]; [reflexivity|]. apply N.log2_spec. lia.
  - lia.
  - rewrite E, app_nil_r. exact H.
Qed.
Lemma numeral_Z z : 0 <= z -> numeral z (str_of_Z z).
Proof. intro H. unfold str_of_Z. replace (z <? 0) with false by lia. pose proof (str_of_N_spec (Z.to_N z)) as X. rewrite Z2N.id in X by lia. exact X. Qed.
Lemma integer_Z : forall z, integer_text z (str_of_Z z).
Proof.
  intro z. unfold integer_text. destruct (z <? 0) eqn:E; [|apply numeral_Z; lia].
  unfold str_of_Z. rewrite E. eexists. split; [reflexivity|]. pose proof (str_of_N_spec (Z.to_N (- z))) as X. rewrite Z2N.id in X by lia. exact X.
Qed.
Lemma si_text : forall x, exists t, fmt_num x = t ++ $".00" /\ integer_text (num_z x) t.
Proof.
  intros [|z]; [exists ($"0")|exists (str_of_Z z)]; (split; [reflexivity|]); [|apply integer_Z].
  exact (integer_Z 0).
Qed.
(** Two digits. *)
Lemma pad2_table : forallb (fun k => let s := pad2 (Z.of_nat k) in forallb (fun c => (48 <=? c)%N && (c <=? 57)%N) s && (zlen s =? 2) && (decimal s =? Z.of_nat k)) (seq 0 100) = true.
Proof. vm_compute. reflexivity. Qed.
Lemma pad2_spec z : 0 <= z < 100 -> all_digits (pad2 z) /\ zlen (pad2 z) = 2 /\ decimal (pad2 z) = z.
Proof.
  intro H. assert (I : In (Z.to_nat z) (seq 0 100)) by (apply in_seq; lia).
  pose proof (proj1 (forallb_forall _ _) pad2_table _ I) as X. cbv beta zeta in X. rewrite Z2Nat.id in X by lia.
  apply andb_prop in X as [X X3]. apply andb_prop in X as [X1 X2]. split; [|lia].
  intros c Hc. rewrite forallb_forall in X1. specialize (X1 _ Hc). lia.
Qed.
Lemma cents_even m e : rounds_even (100 * (Zpos m * 2 ^ Z.max e 0)) (2 ^ Z.max (- e) 0) (cents m e).
Proof.
  unfold cents. destruct (0 <=? e) eqn:E.
  - rewrite (Z.max_l e 0), (Z.max_r (- e) 0) by lia. change (2 ^ 0) with 1. unfold rounds_even.
    replace (100 * (Z.pos m * 2 ^ e) - Z.pos m * 100 * 2 ^ e * 1) with 0 by ring. lia.
  - rewrite (Z.max_r e 0), (Z.max_l (- e) 0) by lia. change (2 ^ 0) with 1. cbv zeta.
    assert (P : 0 < 2 ^ (- e)) by (apply Z.pow_pos_nonneg; lia). set (d := 2 ^ (- e)) in *. clearbody d.
    pose proof (Z.div_mod (Zpos m * 100) d ltac:(lia)) as D. pose proof (Z.mod_pos_bound (Zpos m * 100) d P) as M.
    replace (100 * (Z.pos m * 1)) with (Z.pos m * 100) by ring.
    set (n := Zpos m * 100) in *. set (q := n / d) in *. set (r := n mod d) in *. clearbody q r n. subst n.
    unfold rounds_even.
    assert (A0 : d * q + r - q * d = r) by ring. assert (A1 : d * q + r - (q + 1) * d = r - d) by ring.
    destruct (2 * r <? d) eqn:E1; [rewrite A0; lia|]. destruct (d <? 2 * r) eqn:E2; [rewrite A1; lia|].
    destruct (Z.even q) eqn:E3; [rewrite A0; split; [lia|auto]|]. rewrite A1. split; [lia|]. intros _.
    rewrite Z.even_add, E3. reflexivity.
Qed.
Lemma cents_nonneg m e : 0 <= cents m e.
Proof.
  unfold cents. destruct (0 <=? e) eqn:E; [assert (0 < 2 ^ e) by (apply Z.pow_pos_nonneg; lia); lia|]. cbv zeta.
  assert (P : 0 < 2 ^ (- e)) by (apply Z.pow_pos_nonneg; lia). pose proof (Z.div_pos (Zpos m * 100) (2 ^ (- e)) ltac:(lia) P).
  destruct (_ <? _); [lia|]. destruct (_ <? _); [lia|]. destruct (Z.even _); lia.
Qed.
Lemma body_spec neg num den c : 0 <= c -> rounds_even (100 * num) den c ->
  two_decimals neg num den ((if neg then $"-" else []) ++ str_of_Z (c / 100) ++ $"." ++ pad2 (c mod 100)).
Proof.
  intros Hc H. pose proof (Z.mod_pos_bound c 100 ltac:(lia)) as M. destruct (pad2_spec (c mod 100) M) as (P1 & P2 & P3).
  exists (c / 100), (c mod 100), (str_of_Z (c / 100)), (pad2 (c mod 100)). split; [reflexivity|].
  split; [apply numeral_Z; apply Z.div_pos; lia|]. repeat (split; [assumption|]). rewrite <- (Z.div_mod c 100) by lia. exact H.
Qed.
Lemma float_text : forall (neg : bool) m e, two_decimals neg (Zpos m * 2 ^ Z.max e 0) (2 ^ Z.max (- e) 0) (fmt_2f (S754_finite neg m e)).
Proof. intros neg m e. apply body_spec; [apply cents_nonneg|apply cents_even]. Qed.
Lemma zero_text : forall neg : bool, two_decimals neg 0 1 (fmt_2f (S754_zero neg)).
Proof. intro neg. apply (body_spec neg 0 1 0); [lia|]. split; [cbn; lia|reflexivity]. Qed.
Lemma float_written_2f : forall f, float_written f (fmt_2f f).
Proof. intros [neg|neg| |neg m e]; [apply zero_text|reflexivity|reflexivity|apply float_text]. Qed.
Lemma atts_written : forall v r last name s, fst last = $"break_text" \/ fst last = $"error_text" ->
  In (name, s) (record_atts v r last) -> att_written v r name s.
Proof.
  intros v r [ln ls] name s Hl H. cbn [fst] in Hl. unfold att_written. cbn [record_atts In] in H.
  repeat (destruct H as [H|H];
    [injection H as <- <-; repeat split; intro X; try discriminate X; try (destruct Hl as [-> | ->]; discriminate X);
     first [apply integer_Z|apply si_text|apply float_written_2f|intros ->; apply integer_Z|reflexivity]|]).
  destruct H.
Qed.
Lemma elem_written : forall v r n atts kids name s, record_elem v r = Elem n atts kids \/ error_elem v r = Elem n atts kids ->
  In (name, s) atts -> att_written v r name s.
Proof.
  intros v r n atts kids name s [H|H] Hin; injection H as _ <- _; (eapply atts_written; [|exact Hin]); cbn [fst]; auto.
Qed.
Lemma numeral_unique_digits : forall s t, all_digits s -> all_digits t -> length s = length t -> decimal s = decimal t -> s = t.
Proof.
  intro s. induction s as [|c s IH] using rev_ind; intros t Hs Ht Hl Hd.
  - destruct t; [reflexivity|discriminate].
  - destruct t as [|d t _] using rev_ind; [rewrite app_length in Hl; cbn in Hl; lia|].
    rewrite !app_length in Hl. cbn [length] in Hl. rewrite !decimal_app in Hd.
    assert (Hc : (48 <= c <= 57)%N) by (apply Hs, in_or_app; right; left; reflexivity).
    assert (Hd' : (48 <= d <= 57)%N) by (apply Ht, in_or_app; right; left; reflexivity).
    assert (c = d) as -> by lia. f_equal. apply IH; [| |lia|lia]; intros x Hx; [apply Hs|apply Ht]; apply in_or_app; now left.
Qed.
Lemma decimal_bounds s : all_digits s -> 0 <= decimal s < 10 ^ Z.of_nat (length s).
Proof.
  induction s as [|c s IH] using rev_ind; intro H; [cbn; lia|]. rewrite decimal_app, app_length. cbn [length].
  assert (Hc : (48 <= c <= 57)%N) by (apply H, in_or_app; right; left; reflexivity).
  assert (B : 0 <= decimal s < 10 ^ Z.of_nat (length s)) by (apply IH; intros x Hx; apply H, in_or_app; now left).
  replace (Z.of_nat (length s + 1)) with (Z.succ (Z.of_nat (length s))) by lia. rewrite Z.pow_succ_r by lia. lia.
Qed.
Lemma decimal_low c s : all_digits (c :: s) -> c <> 48%N -> 10 ^ Z.of_nat (length s) <= decimal (c :: s).
Proof.
  induction s as [|d s IH] using rev_ind; intros H Hc.
  - assert (48 <= c <= 57)%N by (apply H; left; reflexivity). change (decimal [c]) with (10 * 0 + (Z.of_N c - 48)). change (10 ^ Z.of_nat (length (@nil N))) with 1. lia.
  - rewrite app_comm_cons, decimal_app, app_length. cbn [length].
    assert (Hd : (48 <= d <= 57)%N) by (apply H; right; apply in_or_app; right; left; reflexivity).
    assert (B : 10 ^ Z.of_nat (length s) <= decimal (c :: s)).
    { apply IH; [|exact Hc]. intros x [<-|Hx]; apply H; [now left|right; apply in_or_app; now left]. }
    replace (Z.of_nat (length s + 1)) with (Z.succ (Z.of_nat (length s))) by lia. rewrite Z.pow_succ_r by lia. lia.
Qed.
Lemma numeral_unique : forall n s t, numeral n s -> numeral n t -> s = t.
Proof.
  assert (L : forall n s t, numeral n s -> numeral n t -> (length s < length t)%nat -> False).
  { intros n s t (S1 & S2 & S3 & S4) (T1 & T2 & T3 & T4) H. destruct t as [|c t]; [contradiction|].
    destruct (N.eq_dec c 48) as [->|Hc].
    - rewrite (T4 eq_refl) in H. cbn [length] in H. destruct s; [contradiction|]. cbn [length] in H. lia.
    - pose proof (decimal_low c t T1 Hc) as B. pose proof (decimal_bounds s S1) as B2. cbn [length] in H.
      assert (10 ^ Z.of_nat (length s) <= 10 ^ Z.of_nat (length t)) by (apply Z.pow_le_mono_r; lia). lia. }
  intros n s t Hs Ht. destruct (lt_eq_lt_dec (length s) (length t)) as [[C|C]|C].
  - destruct (L n s t Hs Ht C).
  - destruct Hs as (S1 & _ & S3 & _), Ht as (T1 & _ & T3 & _). apply numeral_unique_digits; auto. congruence.
  - destruct (L n t s Ht Hs C).
Qed.
