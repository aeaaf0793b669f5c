(** * PrintFacts: lemmas about the console output (behind PropsPrint). *)
From Coq Require Import ZArith NArith List Bool String Lia.
From Coq Require Import Floats.SpecFloat.
From Coq Require Import ZifyBool ZifyNat ZifyN.
From Verif Require Import PyBase PyFloat Enums ErrorTable Regex SyntaxTable Syntax Tokenizer Ers Xml Utils Parser Print.
From Verif Require Import SpecTokenizer TokenizerProofs SyntaxProofs SpecNum NumTables NumProofs SpecText TextProofs.
From Verif Require Import ParserPrims PerfEq PointEq Trace ParseTrace SpecParser ParserInv ParserFacts SpecLegs LegFacts SpecPrint.
Import List ListNotations.
Local Open Scope list_scope.
Local Open Scope Z_scope.

(** ** Cells *)
Fixpoint sums (l : list Z) : Z := match l with [] => 0 | a :: r => a + sums r end.
Lemma zlen_app {A} (a b : list A) : zlen (a ++ b) = zlen a + zlen b.
Proof. unfold zlen. rewrite app_length. lia. Qed.
Lemma cell_slice (cs : list pstr) : forall ws i c a b, map zlen cs = ws -> nth_error cs i = Some c -> a = sums (firstn i ws) -> b = a + zlen c ->
  slice (List.concat cs) (Some a) (Some b) = c.
Proof.
  intros ws i c a b E N Ha Hb. apply nth_error_split in N as (l1 & l2 & -> & Hl). subst b.
  rewrite concat_app. cbn [List.concat]. assert (a = zlen (List.concat l1)) as ->; [|apply slice_mid].
  subst a ws i. rewrite map_app, firstn_app, map_length, Nat.sub_diag. cbn [firstn]. rewrite app_nil_r.
  replace (List.length l1) with (List.length (map (@zlen N) l1)) by apply map_length. rewrite firstn_all.
  clear. induction l1 as [|x l IH]; [reflexivity|]. cbn [map sums List.concat]. now rewrite zlen_app, IH.
Qed.
Lemma last_cell (cs : list pstr) : forall c a, a = zlen (List.concat cs) -> slice (List.concat (cs ++ [c])) (Some a) None = c.
Proof. intros c a ->. rewrite concat_app. cbn [List.concat]. rewrite app_nil_r. apply slice_app_r. Qed.
Lemma concat_len (cs : list pstr) : zlen (List.concat cs) = sums (map zlen cs).
Proof. induction cs as [|x l IH]; [reflexivity|]. cbn [map sums List.concat]. now rewrite zlen_app, IH. Qed.
Lemma pad_left_len w s : zlen s <= Z.of_nat w -> zlen (pad_left w s) = Z.of_nat w.
Proof. intro H. unfold pad_left. rewrite zlen_app. unfold zlen in *. rewrite repeat_length. lia. Qed.
Lemma pad_right_len w s : zlen s <= Z.of_nat w -> zlen (pad_right w s) = Z.of_nat w.
Proof. intro H. unfold pad_right. rewrite zlen_app. unfold zlen in *. rewrite repeat_length. lia. Qed.
Lemma right_cell w s line a b : zlen s <= Z.of_nat w -> b - a = Z.of_nat w -> slice line (Some a) (Some b) = pad_left w s -> at_right line a b s.
Proof. intros H E C. exists (w - List.length s)%nat. rewrite C. split; [reflexivity|]. unfold zlen in *. lia. Qed.
Lemma left_cell w s line a b : zlen s <= Z.of_nat w -> b - a = Z.of_nat w -> slice line (Some a) (Some b) = pad_right w s -> at_left line a b s.
Proof. intros H E C. exists (w - List.length s)%nat. rewrite C. split; [reflexivity|]. unfold zlen in *. lia. Qed.

(** ** Lengths of numerals *)
Lemma decimal_lower r : forall c, (49 <= c)%N -> all_digits (c :: r) -> 10 ^ zlen r <= decimal (c :: r).
Proof.
  induction r as [|d r IH] using rev_ind; intros c Hc H.
  - change (decimal [c]) with (10 * 0 + (Z.of_N c - 48)). change (zlen (@nil N)) with 0. rewrite Z.pow_0_r. lia.
  - rewrite app_comm_cons, TextProofs.decimal_app. assert (D : (48 <= d <= 57)%N) by (apply H; right; apply in_or_app; right; now left).
    assert (K : all_digits (c :: r)) by (intros x Hx; apply H; rewrite app_comm_cons; apply in_or_app; now left).
    specialize (IH c Hc K). rewrite zlen_app. change (zlen [d]) with 1. rewrite Z.add_1_r, Z.pow_succ_r by (unfold zlen; lia). lia.
Qed.
Lemma numeral_len n s k : 0 < k -> n < 10 ^ k -> numeral n s -> zlen s <= k.
Proof.
  intros Hk Hn (D & Ne & E & Z0). destruct s as [|c r]; [contradiction|].
  destruct (N.eq_dec c 48) as [->|C].
  - rewrite Z0 by reflexivity. change (zlen [48%N]) with 1. lia.
  - assert (Hc : (48 <= c <= 57)%N) by (apply D; now left). pose proof (decimal_lower r c ltac:(lia) D) as L. rewrite E in L.
    assert (X : 10 ^ zlen r < 10 ^ k) by lia. apply Z.pow_lt_mono_r_iff in X; [|lia|lia]. rewrite zlen_cons. lia.
Qed.
Lemma str_len z k : 0 < k -> 0 <= z < 10 ^ k -> zlen (str_of_Z z) <= k.
Proof. intros Hk H. apply (numeral_len z); [exact Hk|lia|]. apply numeral_Z. lia. Qed.
Lemma plain_written x : plain_si x (fmt_plain x).
Proof. destruct x; [reflexivity|]. cbn. apply integer_Z. Qed.
Lemma plain_len x k : 3 <= k -> 0 <= num_z x < 10 ^ k -> zlen (fmt_plain x) <= k.
Proof. destruct x as [|z]; cbn [num_z fmt_plain]; intros Hk H; [change (zlen ($"0.0")) with 3; lia|]. apply str_len; lia. Qed.
Lemma pad2_len z : 0 <= z < 100 -> zlen (pad2 z) = 2.
Proof. intro H. now destruct (pad2_spec z H) as (_ & X & _). Qed.
Lemma body_len c k : 0 < k -> 0 <= c < 100 * 10 ^ k -> zlen (str_of_Z (c / 100) ++ $"." ++ pad2 (c mod 100)) <= k + 3.
Proof.
  intros Hk H. rewrite !zlen_app. rewrite pad2_len by (apply Z.mod_pos_bound; lia). change (zlen ($".")) with 1.
  assert (X : 0 <= c / 100 < 10 ^ k) by (split; [apply Z.div_pos; lia|apply Z.div_lt_upper_bound; lia]). pose proof (str_len _ k Hk X). lia.
Qed.
Lemma float_len k m f : 0 < k -> m < 10 ^ k -> 0 <= m -> at_most m f -> zlen (fmt_2f f) <= k + 4 /\ (not_negative f -> zlen (fmt_2f f) <= k + 3).
Proof.
  intros Hk Hm Hm0 H. pose proof (Z.pow_pos_nonneg 10 k ltac:(lia) ltac:(lia)) as P10. destruct f as [neg|neg| |neg p e]; unfold fmt_2f; cbv zeta; cbn [at_most not_negative] in *.
  - pose proof (body_len 0 k Hk ltac:(lia)). destruct neg; rewrite zlen_app; [change (zlen ($"-")) with 1|change (zlen (@nil N)) with 0]; split; try lia; try discriminate.
  - contradiction.
  - change (zlen ($"nan")) with 3. lia.
  - assert (C : 0 <= cents p e <= 100 * m).
    { split; [apply cents_nonneg|]. pose proof (proj1 (cents_even p e)) as R.
      assert (D : 0 < 2 ^ Z.max (- e) 0) by (apply Z.pow_pos_nonneg; lia).
      set (d := 2 ^ Z.max (- e) 0) in *. set (n := Z.pos p * 2 ^ Z.max e 0) in *. set (c := cents p e) in *. clearbody d n c. nia. }
    pose proof (body_len (cents p e) k Hk ltac:(lia)) as B. set (w := str_of_Z _ ++ _) in *. clearbody w.
    destruct neg; rewrite zlen_app; [change (zlen ($"-")) with 1|change (zlen (@nil N)) with 0]; split; try lia; try discriminate.
Qed.

(** ** The line of a record *)
Record fits (r : rrec) : Prop := mkFits {
  f_name : zlen (r_name r) <= 17; f_start : zlen (str_of_Z (r_start r)) <= 6; f_end : zlen (str_of_Z (r_end r)) <= 6;
  f_speed : zlen (r_speed r) <= 6; f_speed_si : zlen (fmt_plain (r_speed_si r)) <= 6;
  f_alt : zlen (r_alt r) <= 6; f_alt_si : zlen (fmt_plain (r_alt_si r)) <= 6;
  f_brg : zlen (fmt_2f (r_brg r)) <= 7; f_dist : zlen (fmt_2f (r_dist r)) <= 11; f_rules : zlen (r_rules r) <= 6;
  f_stay : zlen (str_of_Z (r_stay r)) <= 5; f_cto : zlen (r_cto r) <= 7; f_cto_si : zlen (fmt_plain (r_cto_si r)) <= 7;
  f_lat : zlen (fmt_2f (r_lat r)) <= 7; f_lon : zlen (fmt_2f (r_lon r)) <= 8 }.
Lemma base_len b : zlen (str_of_Z (base_code b)) <= 5.
Proof. destruct b; vm_compute; discriminate. Qed.
Lemma sub_len b : zlen (str_of_Z (sub_code b)) <= 5.
Proof. destruct b; vm_compute; discriminate. Qed.
Definition cells (r : rrec) : list pstr :=
  [pad_right 17 (r_name r); pad_left 6 (str_of_Z (r_start r)); pad_left 6 (str_of_Z (r_end r));
   pad_left 5 (str_of_Z (base_code (r_base r))); pad_left 5 (str_of_Z (sub_code (r_sub r)));
   pad_left 6 (r_speed r); pad_left 6 (fmt_plain (r_speed_si r)); pad_left 6 (r_alt r); pad_left 6 (fmt_plain (r_alt_si r));
   pad_left 7 (fmt_2f (r_brg r)); pad_left 11 (fmt_2f (r_dist r)); pad_left 6 (r_rules r); pad_left 5 (str_of_Z (r_stay r));
   pad_left 7 (r_cto r); pad_left 7 (fmt_plain (r_cto_si r)); pad_left 7 (fmt_2f (r_lat r)); pad_left 8 (fmt_2f (r_lon r)); $" "].
Lemma to_string_cells e r : to_string e r = List.concat (cells r ++ [pad_right 91 (if e then r_err r else r_break r)]).
Proof. unfold to_string, cells. cbn [List.concat app]. now rewrite app_nil_r. Qed.
Lemma cells_len r : fits r -> map zlen (cells r) = [17; 6; 6; 5; 5; 6; 6; 6; 6; 7; 11; 6; 5; 7; 7; 7; 8; 1].
Proof.
  intros []. cbn [map cells]. pose proof (base_len (r_base r)). pose proof (sub_len (r_sub r)).
  rewrite !pad_left_len by lia. rewrite pad_right_len by lia. reflexivity.
Qed.
Lemma record_fits (e : bool) r : fits r -> record_line r (if e then r_err r else r_break r) (to_string e r).
Proof.
  intro F. pose proof (cells_len r F) as E. rewrite to_string_cells. set (tx := if e then r_err r else r_break r). clearbody tx. set (x := pad_right 91 tx).
  assert (Q : map zlen (cells r ++ [x]) = [17; 6; 6; 5; 5; 6; 6; 6; 6; 7; 11; 6; 5; 7; 7; 7; 8; 1; zlen x]) by exact (eq_trans (map_app zlen (cells r) [x]) (f_equal (fun l => l ++ [zlen x]) E)).
  pose proof (base_len (r_base r)). pose proof (sub_len (r_sub r)). destruct F.
  assert (R : forall i w s a b, nth_error (cells r ++ [x]) i = Some (pad_left w s) -> zlen s <= Z.of_nat w ->
     a = sums (firstn i [17; 6; 6; 5; 5; 6; 6; 6; 6; 7; 11; 6; 5; 7; 7; 7; 8; 1; zlen x]) -> b = a + Z.of_nat w -> at_right (List.concat (cells r ++ [x])) a b s).
  { intros i w s a b N L A B. apply (right_cell w); [exact L|lia|]. apply (cell_slice _ _ i _ _ _ Q N A). rewrite pad_left_len; [exact B|exact L]. }
  unfold record_line.
  split. { apply (left_cell 17); [assumption|reflexivity|]. apply (cell_slice _ _ 0%nat _ _ _ Q eq_refl); [reflexivity|]. now rewrite pad_right_len. }
  split. { eexists. split; [apply integer_Z|]. apply (R 1%nat 6%nat); [reflexivity|assumption|reflexivity|reflexivity]. }
  split. { eexists. split; [apply integer_Z|]. apply (R 2%nat 6%nat); [reflexivity|assumption|reflexivity|reflexivity]. }
  split. { eexists. split; [apply integer_Z|]. apply (R 3%nat 5%nat); [reflexivity|assumption|reflexivity|reflexivity]. }
  split. { eexists. split; [apply integer_Z|]. apply (R 4%nat 5%nat); [reflexivity|assumption|reflexivity|reflexivity]. }
  split. { apply (R 5%nat 6%nat); [reflexivity|assumption|reflexivity|reflexivity]. }
  split. { eexists. split; [apply plain_written|]. apply (R 6%nat 6%nat); [reflexivity|assumption|reflexivity|reflexivity]. }
  split. { apply (R 7%nat 6%nat); [reflexivity|assumption|reflexivity|reflexivity]. }
  split. { eexists. split; [apply plain_written|]. apply (R 8%nat 6%nat); [reflexivity|assumption|reflexivity|reflexivity]. }
  split. { eexists. split; [apply float_written_2f|]. apply (R 9%nat 7%nat); [reflexivity|assumption|reflexivity|reflexivity]. }
  split. { eexists. split; [apply float_written_2f|]. apply (R 10%nat 11%nat); [reflexivity|assumption|reflexivity|reflexivity]. }
  split. { apply (R 11%nat 6%nat); [reflexivity|assumption|reflexivity|reflexivity]. }
  split. { eexists. split; [apply integer_Z|]. apply (R 12%nat 5%nat); [reflexivity|assumption|reflexivity|reflexivity]. }
  split. { apply (R 13%nat 7%nat); [reflexivity|assumption|reflexivity|reflexivity]. }
  split. { eexists. split; [apply plain_written|]. apply (R 14%nat 7%nat); [reflexivity|assumption|reflexivity|reflexivity]. }
  split. { eexists. split; [apply float_written_2f|]. apply (R 15%nat 7%nat); [reflexivity|assumption|reflexivity|reflexivity]. }
  split. { eexists. split; [apply float_written_2f|]. apply (R 16%nat 8%nat); [reflexivity|assumption|reflexivity|reflexivity]. }
  split. { apply (cell_slice _ _ 17%nat _ _ _ Q eq_refl); reflexivity. }
  exists (91 - List.length tx)%nat. split; [|unfold zlen; lia].
  apply (last_cell (cells r)). rewrite concat_len, E. reflexivity.
Qed.

(** ** The line of a token *)
Lemma token_fits t : zlen (t_text t) <= 9 -> 0 <= t_start t < 10 ^ 6 -> 0 <= t_end t < 10 ^ 5 -> token_printed t (token_line t).
Proof.
  intros H1 H2 H3. apply str_len in H2; [|lia]. apply str_len in H3; [|lia]. pose proof (base_len (t_base t)). pose proof (sub_len (t_sub t)).
  set (cs := [pad_left 9 (t_text t); pad_left 6 (str_of_Z (t_start t)); pad_left 5 (str_of_Z (t_end t)); pad_left 5 (str_of_Z (base_code (t_base t))); pad_left 5 (str_of_Z (sub_code (t_sub t)))]).
  assert (E : token_line t = List.concat cs) by (unfold token_line, cs; cbn [List.concat]; now rewrite app_nil_r).
  assert (Q : map zlen cs = [9; 6; 5; 5; 5]) by (unfold cs; cbn [map]; rewrite !pad_left_len by lia; reflexivity).
  rewrite E.
  assert (R : forall i w s a b, nth_error cs i = Some (pad_left w s) -> zlen s <= Z.of_nat w ->
     a = sums (firstn i [9; 6; 5; 5; 5]) -> b = a + Z.of_nat w -> at_right (List.concat cs) a b s).
  { intros i w s a b N L A B. apply (right_cell w); [exact L|lia|]. apply (cell_slice _ _ i _ _ _ Q N A). rewrite pad_left_len; [exact B|exact L]. }
  unfold token_printed. split; [rewrite concat_len, Q; reflexivity|].
  split. { apply (R 0%nat 9%nat); [reflexivity|assumption|reflexivity|reflexivity]. }
  split. { eexists. split; [apply integer_Z|]. apply (R 1%nat 6%nat); [reflexivity|assumption|reflexivity|reflexivity]. }
  split. { eexists. split; [apply integer_Z|]. apply (R 2%nat 5%nat); [reflexivity|assumption|reflexivity|reflexivity]. }
  split. { eexists. split; [apply integer_Z|]. apply (R 3%nat 5%nat); [reflexivity|assumption|reflexivity|reflexivity]. }
  eexists. split; [apply integer_Z|]. apply (R 4%nat 5%nat); [reflexivity|assumption|reflexivity|reflexivity].
Qed.
