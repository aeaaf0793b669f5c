(** * PropsMirror: C105 — the mirror image of a route. *)
From Coq Require Import ZArith NArith List Bool String Lia.
From Verif Require Import PyBase PyFloat Enums Tokenizer Ers Utils Parser SpecParser SpecComplete SpecRename SpecFlow SpecBearings SpecMirror TokenizerProofs Mirror.
Import List ListNotations.
Local Open Scope list_scope.

(** C105. Exchange N and S, or E and W, in the positions of a field: acceptance, rules, errors, types, speeds, levels and stays stay the
    same, every position becomes the one on the other side, and distances are the same if the library is symmetric. *)
Theorem C105_mirror : forall (G : geodesic) (x : line) (depth : nat) (f g : pstr),
  mirrored x f g -> no_offsets f -> field_tokens f <> [] -> (3 * n_tokens f <= depth + 1)%nat ->
  match parse_field15 G depth f, parse_field15 G depth g with
  | Ok a s, Ok b z =>
      a = b /\ e_rules (s_ers s) = e_rules (s_ers z) /\ Forall2 (same_report (opposite f g)) (e_errs (s_ers s)) (e_errs (s_ers z)) /\
      Forall2 (fun r q => same_shape (opposite f g) r q /\ same_performance r q /\ same_stay r q) (e_recs (s_ers s)) (e_recs (s_ers z)) /\
      Forall2 (fun r q => r_llv r = true -> across x (place r) (place q)) (e_recs (s_ers s)) (e_recs (s_ers z)) /\
      (symmetric x G -> Forall2 (fun r q => r_dist r = r_dist q) (e_recs (s_ers s)) (e_recs (s_ers z)))
  | Exn a _, Exn b _ => a = b
  | _, _ => False
  end.
Proof. exact mirror_image. Qed.
Print Assumptions C105_mirror.

(** A symmetric library: the distance is the sum of the differences in whole degrees. *)
Definition degrees_apart (a b : f64) : Z := Z.abs (value a - value b) / 2 ^ 3000.
Definition blocks : geodesic := mkGeo (fun a b _ _ => (a, b)) (fun a b c d => (f_of_Z 0, f_of_Z (degrees_apart a c + degrees_apart b d))).
Lemma blocks_symmetric x : symmetric x blocks.
Proof.
  assert (Z1 : forall a b, Z.abs (- a - - b) = Z.abs (a - b)) by (intros; lia).
  intros p p' q q' A B. cbn [blocks geo_inverse snd]. unfold degrees_apart. destruct x, A as [A1 A2], B as [B1 B2]; rewrite A1, A2, B1, B2, Z1; reflexivity.
Qed.
Definition here : pstr := $"N0450F350 48N005E DCT 5030S00215W/N0400F300 DEF/K0800VFR 51N002E IFR 10N020W/N0450F350 STAY1/0010 95N001E".
Definition there : pstr := $"N0450F350 48S005E DCT 5030N00215W/N0400F300 DEF/K0800VFR 51S002E IFR 10S020W/N0450F350 STAY1/0010 95S001E".
Definition seen (f : pstr) : list (pstr * f64 * f64 * f64) :=
  match parse_field15 blocks 100 f with Ok _ s => map (fun r => (r_name r, r_lat r, r_lon r, r_dist r)) (filter r_llv (e_recs (s_ers s))) | _ => [] end.
Fixpoint imagesb (x : line) (l m : list token) : bool :=
  match l, m with
  | [], [] => true
  | t :: l', u :: m' => pstr_eqb (t_text u) (if given_position t then mirror x (t_text t) else t_text t) && imagesb x l' m'
  | _, _ => false
  end.
Lemma mirrored_test x f g : imagesb x (field_tokens f) (field_tokens g) = true -> mirrored x f g.
Proof.
  unfold mirrored. generalize (field_tokens f) (field_tokens g). induction l as [|t l IH]; intros [|u m] H; try discriminate; [constructor|].
  cbn [imagesb] in H. apply andb_true_iff in H as [H1 H2]. constructor; [|now apply IH]. now apply pstr_eqb_eq.
Qed.
Example C105_example : mirrored Equator here there /\ no_offsets here /\ field_tokens here <> [] /\ (3 * n_tokens here <= 100 + 1)%nat /\ symmetric Equator blocks /\
  seen here = [($"48N005E", f_of_Z 48, f_of_Z 5, f_of_Z 105); ($"5030S00215W", flit (-505) 10, flit (-225) 100, f_of_Z 0); ($"10N020W", f_of_Z 10, f_of_Z (-20), f_of_Z 106);
               ($"95N001E", f_of_Z 95, f_of_Z 1, f_of_Z 0)] /\
  seen there = [($"48S005E", f_of_Z (-48), f_of_Z 5, f_of_Z 105); ($"5030N00215W", flit 505 10, flit (-225) 100, f_of_Z 0); ($"10S020W", f_of_Z (-10), f_of_Z (-20), f_of_Z 106);
               ($"95S001E", f_of_Z (-95), f_of_Z 1, f_of_Z 0)].
Proof.
  split; [apply mirrored_test; vm_compute; reflexivity|].
  split. { unfold no_offsets. apply Forall_forall. vm_compute. repeat (constructor; [split; discriminate|]). constructor. }
  split; [vm_compute; discriminate|]. split; [vm_compute; lia|]. split; [apply blocks_symmetric|]. split; vm_compute; reflexivity.
Qed.
