(** * ParseTrace: the outcome of parse_f15 in terms of the events of [Trace]. *)
From Coq Require Import ZArith NArith List Bool String Lia.
From Coq Require Import Floats.SpecFloat.
From Coq Require Import ZifyBool ZifyNat ZifyN.
From Verif Require Import PyBase PyFloat Enums ErrorTable Regex SyntaxTable Syntax Tokenizer Ers Utils Parser.
From Verif Require Import TokenizerProofs ParserPrims PerfEq PointEq Trace.
Import List ListNotations.
Local Open Scope list_scope.
Local Open Scope nat_scope.

(** The derived flight rules of a list of records. *)
Definition derived (l : list rrec) : pstr :=
  match l with
  | f :: _ => if pstr_eqb (r_rules f) ($"VFR") then (if some_rules ($"IFR") l then $"Z" else $"V")
              else (if some_rules ($"VFR") l then $"Y" else $"I")
  | [] => []
  end.
Definition adep0 : rrec := dummy ($"ADEP").
Definition cfg0 (k : nat) : cfg := mkC 0 [] adep0 [] [] k.
Definition is_vfr_first (L : list token) : bool :=
  match L with t :: _ => base_eqb (t_base t) F15_SPEED_VFR | [] => false end.
(** The records of the field (with ADEP). *)
Definition field_recs (v : bool) (y : cfg) : list rrec :=
  (if v then list_upd 0 (set_r_rules RULE_V) else (fun l => l)) (c_l y ++ [c_p y]).
Definition ades_rec (rs : list rrec) : rrec := set_r_rules (r_rules (last rs adep0)) (dummy ($"ADES")).
Definition final_recs (v : bool) (y : cfg) : list rrec := field_recs v y ++ [ades_rec (field_recs v y)].

Lemma assign_syntax_wt t : wt (assign_syntax t).
Proof. unfold wt, assign_syntax. destruct (classify (t_text t)) as [b s] eqn:E. exact E. Qed.
Lemma assign_syntax_all L0 : Forall wt (map assign_syntax L0).
Proof. rewrite Forall_forall. intros t Ht. apply in_map_iff in Ht as (t0 & <- & _). apply assign_syntax_wt. Qed.

Section G.
Variable G : geodesic.

(** The part of parse_f15 after the parser methods have returned (F15Parse.py:105-128). *)
Definition closing : M bool :=
  oades <- append_rec (dummy ($"ADES")) ;;
  op <- prev_elem ;;
  match op with
  | None => e <- n_errors ;; ret (e =? 0)%Z
  | Some p =>
      pr <- rd p ;; ades <- deref oades ;; upd ades (set_r_rules (r_rules pr)) ;;;
      of_ <- first_elem ;; f <- deref of_ ;; fr <- rd f ;;
      (fun s =>
         let l := e_recs (s_ers s) in
         let d := if pstr_eqb (r_rules fr) ($"VFR")
                  then (if some_rules ($"IFR") l then $"Z" else $"V")
                  else (if some_rules ($"VFR") l then $"Y" else $"I") in
         Ok tt (mkSt (s_toks s) (mkErs l (e_errs (s_ers s)) d) (s_calls s))) ;;;
      e <- n_errors ;; ret (e =? 0)%Z
  end.
Lemma closing_eq L cur l p errs ru k :
  closing (stt L cur l p errs ru k)
  = Ok (zlen errs =? 0)%Z (mkSt (mkTokens L cur)
         (mkErs ((l ++ [p]) ++ [ades_rec (l ++ [p])]) errs (derived ((l ++ [p]) ++ [ades_rec (l ++ [p])]))) k).
Proof.
  unfold closing. bok (append_rec_eq L cur l p errs ru k (dummy ($"ADES"))).
  bok (prev_elem_eq L cur l p (dummy ($"ADES")) errs ru k).
  bok (rd_prev_eq L cur l p (dummy ($"ADES")) errs ru k). cbn [deref opt_or]. bret.
  bok (upd_last_eq L cur (l ++ [p]) (dummy ($"ADES")) errs ru k (set_r_rules (r_rules p))).
  bok (first_elem_eq L cur (l ++ [p]) (set_r_rules (r_rules p) (dummy ($"ADES"))) errs ru k). cbn [deref opt_or]. bret.
  assert (E : ades_rec (l ++ [p]) = set_r_rules (r_rules p) (dummy ($"ADES"))) by (unfold ades_rec; now rewrite last_last).
  rewrite E. set (q := set_r_rules (r_rules p) (dummy ($"ADES"))).
  assert (exists f l', (l ++ [p]) ++ [q] = f :: l') as (f & l' & Ef).
  { destruct l as [|f l]; [now exists p, [q]|]. now exists f, ((l ++ [p]) ++ [q]). }
  assert (R : rd 0 (stt L cur (l ++ [p]) q errs ru k) = Ok f (stt L cur (l ++ [p]) q errs ru k)).
  { unfold rd, stt. cbn [s_ers e_recs]. rewrite Ef. reflexivity. }
  bok R. unfold bind. cbn [stt s_ers e_recs e_errs s_toks s_calls n_errors get_number_of_errors ret]. rewrite Ef. reflexivity.
Qed.

Lemma parse_eq depth L0 c0 k t L1 : map assign_syntax L0 = t :: L1 ->
  parse_f15 G depth (mkSt (mkTokens L0 c0) new_ers k)
  = bind (match t_base t with
      | F15_SPEED_VFR => run G depth (CSpdVfr t) ;;; (o <- first_elem ;; i <- deref o ;; upd i (set_r_rules RULE_V))
      | F15_SPEED_ALTITUDE => run G depth (CSpdAlt t) ;;; (n <- tok_count ;; if (n =? 1)%Z then run G depth (CErrSync t 49) else ret tt)
      | _ => run G depth (CErrSync t 1)
      end) (fun _ => closing) (st_of (t :: L1) [] (cfg0 k)).
Proof.
  intro H. unfold parse_f15, assign_syntax_descriptions. unfold bind at 1. cbn [s_toks tk_list tk_cur s_ers s_calls]. rewrite H.
  unfold tok_first, get_first_token. unfold bind at 1. cbn [s_toks tk_list tk_cur s_ers s_calls].
  unfold get_token_at. cbn [tk_list]. replace ((0 <? 0) || (zlen (t :: L1) <=? 0))%Z with false by (unfold zlen; cbn [length]; lia).
  change (nth_error (t :: L1) (Z.to_nat 0)) with (Some t). cbv iota. reflexivity.
Qed.
Lemma zlen0 {A} (l : list A) : (zlen l =? 0)%Z = match l with [] => true | _ => false end.
Proof. destruct l; [reflexivity|]. unfold zlen. cbn [length]. lia. Qed.

(** Outcome for a field with at least one token. *)
Definition outcome (depth : nat) (L : list token) (k : nat) (o : out bool) : Prop :=
  let n := length L in
  match o with
  | Ok b s => exists y, reach G L (cfg0 k) y /\
      s = mkSt (mkTokens L (Z.of_nat (c_cur y)))
               (mkErs (final_recs (is_vfr_first L) y) (c_errs y) (derived (final_recs (is_vfr_first L) y))) (c_k y) /\
      b = match c_errs y with [] => true | _ => false end /\ c_k y + 3 <= k + 6 * n
  | Exn e s => exists y, reachx G L (cfg0 k) y /\ s = st_of L [] y /\ c_k y + 3 <= k + 6 * n /\
      ((e = RecursionError /\ depth + 1 < 3 * n) \/ (e = ValueError /\ has_na L))
  end.
Theorem parse_trace depth L0 c0 k : L0 <> [] ->
  outcome depth (map assign_syntax L0) k (parse_f15 G depth (mkSt (mkTokens L0 c0) new_ers k)).
Proof.
  intro Hne. pose proof (assign_syntax_all L0) as HL. destruct (map assign_syntax L0) as [|t L1] eqn:E0; [destruct L0; [congruence|discriminate]|].
  rewrite (parse_eq depth L0 c0 k t L1 E0). set (L := t :: L1) in *.
  assert (US : us_le (cfg0 k)) by (intros i []).
  assert (It : In t L) by now left.
  assert (Rem : rem L (cfg0 k) = length L - 1) by (unfold rem, n; cbn [cfg0 c_cur]; unfold L; cbn [length]; lia).
  assert (Len : 1 <= length L) by (unfold L; cbn [length]; lia).
  assert (C : forall m, sat G L [] m (cfg0 k) (fun _ y => c_k y + 3 <= k + 6 * length L)
             (fun e y => c_k y + 3 <= k + 6 * length L /\ ((e = RecursionError /\ depth + 1 < 3 * length L) \/ (e = ValueError /\ has_na L))) ->
          is_vfr_first L = false ->
          outcome depth L k (bind m (fun _ : unit => closing) (st_of L [] (cfg0 k)))).
  { intros m S V. unfold sat in S. unfold bind. destruct (m (st_of L [] (cfg0 k))) as [[] s|e s].
    - destruct S as (y & -> & R & B). unfold st_of. rewrite closing_eq. unfold outcome. exists y. rewrite V, zlen0. auto.
    - destruct S as (y & -> & R & B). unfold outcome. exists y. tauto. }
  assert (Err : forall m, defined_error m = true -> sat G L [] (run G depth (CErrSync t m)) (cfg0 k) (fun _ y => c_k y + 3 <= k + 6 * length L)
             (fun e y => c_k y + 3 <= k + 6 * length L /\ ((e = RecursionError /\ depth + 1 < 3 * length L) \/ (e = ValueError /\ has_na L)))).
  { intros m D. eapply sat_conseq; [exact (run_sat G L [] HL depth (CErrSync t m) 0 (cfg0 k) US (conj It D))| |].
    - intros [] y R [B _]. unfold budget in B. rewrite Rem in B. cbn [cfg0 c_k cost] in B. lia.
    - intros e y [B X]. unfold budget in B. rewrite Rem in *. cbn [cfg0 c_k cost height] in *. split; [lia|]. destruct X as [[-> X]|X]; [left; split; [reflexivity|lia]|now right]. }
  destruct (t_base t) eqn:Eb; try (apply C; [now apply Err|unfold is_vfr_first, L; rewrite Eb; reflexivity]).
  - (* speed/VFR first *)
    pose proof (run_sat G L [] HL depth (CSpdVfr t) 0 (cfg0 k) US (conj eq_refl (conj (le_n 0) (conj (fun F => F) Eb)))) as S.
    rewrite bind_assoc. unfold sat in S. unfold bind at 1. destruct (run G depth (CSpdVfr t) (st_of L [] (cfg0 k))) as [[] s|e s].
    + destruct S as (y & -> & R & [B _]). unfold st_of at 1. rewrite bind_assoc.
      bok (first_elem_eq L (Z.of_nat (c_cur y)) (c_l y) (c_p y) (c_errs y) [] (c_k y)). cbn [deref opt_or]. rewrite bind_assoc. bret.
      assert (U : exists l p, upd 0 (set_r_rules RULE_V) (stt L (Z.of_nat (c_cur y)) (c_l y) (c_p y) (c_errs y) [] (c_k y))
                  = Ok tt (stt L (Z.of_nat (c_cur y)) l p (c_errs y) [] (c_k y)) /\ l ++ [p] = list_upd 0 (set_r_rules RULE_V) (c_l y ++ [c_p y])).
      { unfold upd, stt. cbn [s_ers e_recs s_toks s_calls e_errs e_rules]. destruct (c_l y) as [|f l].
        - exists [], (set_r_rules RULE_V (c_p y)). split; reflexivity.
        - exists (set_r_rules RULE_V f :: l), (c_p y). split; reflexivity. }
      destruct U as (l & p & U & El). bok U. rewrite closing_eq. unfold outcome. exists y.
      split; [exact R|]. unfold is_vfr_first, L, final_recs, field_recs. rewrite Eb. cbn [base_eqb base_code Z.eqb Pos.eqb]. rewrite <- El, zlen0.
      split; [reflexivity|]. split; [reflexivity|]. unfold budget in B. rewrite Rem in B. cbn [cfg0 c_k cost] in B. fold L. lia.
    + destruct S as (y & -> & R & [B X]). unfold outcome. exists y. unfold budget in B. rewrite Rem in *. cbn [cfg0 c_k cost height] in *.
      split; [exact R|]. split; [reflexivity|]. split; [lia|]. destruct X as [[-> X]|X]; [left; split; [reflexivity|lia]|now right].
  - (* speed/level first *)
    apply C; [|unfold is_vfr_first, L; rewrite Eb; reflexivity].
    pose proof (run_sat G L [] HL depth (CSpdAlt t) 0 (cfg0 k) US (conj It Eb)) as S.
    eapply sat_bind; [exact S| |].
    + intros [] y R [B _]. pose proof (reach_us_le G L _ _ R US) as Uy. pose proof (reach_cur G L _ _ R) as Cy.
      eapply (sat_step _ _ _ _ _ y _ y); [reflexivity|constructor|].
      unfold budget in B. rewrite Rem in B. cbn [cfg0 c_k cost c_cur] in *.
      destruct (_ =? 1)%Z eqn:E1; [|apply sat_ret; lia].
      assert (L1e : length L = 1) by (unfold get_number_of_tokens, st_of, stt, zlen in E1; cbn [s_toks tk_list] in E1; lia).
      assert (Ry : rem L y = 0) by (unfold rem, n; lia).
      eapply sat_conseq; [exact (run_sat G L [] HL depth (CErrSync t 49) 0 y Uy (conj It eq_refl))| |].
      * intros [] z Rz [Bz _]. unfold budget in Bz. cbn [cost] in Bz. lia.
      * intros e z [Bz X]. unfold budget in Bz. cbn [cost height] in *. split; [lia|]. destruct X as [[-> X]|X]; [left; split; [reflexivity|lia]|now right].
    + intros e y [B X]. unfold budget in B. rewrite Rem in *. cbn [cfg0 c_k cost height] in *. split; [lia|]. destruct X as [[-> X]|X]; [left; split; [reflexivity|lia]|now right].
Qed.
End G.
