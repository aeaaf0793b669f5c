(** * SpecChange: how far a change of speed and level reaches.

    A change of speed and level at a point holds for the record of that point and the records after it, up to the record that the next
    change belongs to.  Nothing here refers to the parser. *)
From Coq Require Import ZArith NArith List Bool String.
From Verif Require Import PyBase PyFloat Enums Tokenizer Ers SpecParser SpecGrammar SpecAccept SpecLayout SpecRemoval.
Import List ListNotations.
Local Open Scope list_scope.
Local Open Scope nat_scope.

(** The number of records a change reaches that is followed by the elements [w]; [n] records have been reached so far.  The next change
    belongs to the last of these. *)
Fixpoint reach (n : nat) (w : list (token * role)) : nat :=
  match w with
  | [] => n
  | x :: r => match modifier x with Some _ => n - 1 | None => reach (if recorded x r then S n else n) r end
  end.
(** The last element is the point right after the IFR that ends a VFR section; the speed and level at this point are part of the ending. *)
Definition just_ifr (w : list (token * role)) : Prop := exists w0 x p, w = w0 ++ [(x, RText); (p, ROut)] /\ t_sub x = F15_SB_IFR.
(** All values but the place, the speed and the level. *)
Definition same_but_speed (r r' : rrec) : Prop :=
  r_name r = r_name r' /\ r_base r = r_base r' /\ r_sub r = r_sub r' /\ r_break r = r_break r' /\ r_rules r = r_rules r' /\ r_err r = r_err r' /\
  r_stay r = r_stay r' /\ r_cto r = r_cto r' /\ r_cto_si r = r_cto_si r' /\ r_lat r = r_lat r' /\ r_lon r = r_lon r' /\ r_brg r = r_brg r' /\ r_dist r = r_dist r' /\ r_llv r = r_llv r'.
(** [x'] is the result with a change to speed [sp] and level [lv] between the elements [pre] and [rest], [x] that without it. *)
Definition changed_from (pre rest : list (token * role)) (sp lv : pstr) (x x' : ers) : Prop :=
  exists U M V U' M' V', e_recs x = U ++ M ++ V /\ e_recs x' = U' ++ M' ++ V' /\
    length U = length (recorded_at 0 pre) /\ length M = reach 1 rest /\
    Forall2 same_but_place U U' /\ Forall2 same_but_speed M M' /\ Forall2 same_but_place V V' /\
    Forall (fun r => in_force pre = Some (r_speed r, r_alt r)) M /\ Forall (fun r => r_speed r = sp /\ r_alt r = lv) M' /\
    e_errs x = [] /\ e_errs x' = [] /\ e_rules x = e_rules x'.
(** [x] is the result with the first element [t], followed by the elements [rest], [x'] that with speed [sp] and level [lv] in place of it. *)
Definition changed_first (t : token) (rest : list (token * role)) (sp lv : pstr) (x x' : ers) : Prop :=
  exists M V M' V', e_recs x = M ++ V /\ e_recs x' = M' ++ V' /\ length M = reach 1 rest /\
    Forall2 same_but_speed M M' /\ Forall2 same_but_place V V' /\
    Forall (fun r => r_speed r = speed_part (t_text t) /\ r_alt r = first_level (t_text t)) M /\ Forall (fun r => r_speed r = sp /\ r_alt r = lv) M' /\
    e_errs x = [] /\ e_errs x' = [] /\ e_rules x = e_rules x'.
