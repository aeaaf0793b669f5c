(** * Order: the SI values of levels and speeds are ordered as what they stand for (lemmas behind PropsOrder). *)
From Coq Require Import ZArith NArith List Bool String Lia.
From Coq Require Import ZifyBool ZifyNat ZifyN.
From Verif Require Import PyBase PyFloat Enums Tokenizer Ers Utils Parser SpecNum SpecParser SpecOrder NumFacts PrintRuns TextProofs PropsParser.
Import List ListNotations.
Local Open Scope list_scope.
Local Open Scope Z_scope.

Section G.
Variable G : geodesic.
Lemma agrees r : occurs G r -> r_alt r <> [] -> si_agrees r.
Proof.
  intros (d & f & b & s & P & I) N. pose proof (C31_si_agrees G d f b s P) as F. rewrite Forall_forall in F. destruct (F r I) as [(E & _)|K]; [congruence|exact K].
Qed.
Lemma level_exact r : si_agrees r -> (if match r_alt r with [] => false | c :: _ => is_feet c end then rounds_to (height (r_alt r)) 10000 (level_si r) else height (r_alt r) = level_si r * 10000) /\ 0 <= level_si r.
Proof.
  intros (c & ds & u & es & E & Ic & D & L & _ & _ & _ & _ & a & v & A & _ & R & _). unfold level_si. rewrite E, A. cbn [height num_z].
  pose proof (digits_len ds (zlen ds) (Z.le_refl _) D) as B. destruct (is_feet c); [|lia]. split; [exact R|]. unfold rounds_to in R. lia.
Qed.
Theorem level_order r r' : occurs G r -> occurs G r' -> r_alt r <> [] -> r_alt r' <> [] -> height (r_alt r) <= height (r_alt r') -> level_si r <= level_si r'.
Proof.
  intros O O' N N' H. destruct (level_exact r (agrees r O N)) as (K & _), (level_exact r' (agrees r' O' N')) as (K' & _).
  destruct (match r_alt r with [] => false | c :: _ => is_feet c end), (match r_alt r' with [] => false | c :: _ => is_feet c end); unfold rounds_to in *; lia.
Qed.
Theorem level_strict r r' : occurs G r -> occurs G r' -> r_alt r <> [] -> r_alt r' <> [] -> (in_feet (r_alt r) <-> in_feet (r_alt r')) ->
  (height (r_alt r) < height (r_alt r') <-> level_si r < level_si r').
Proof.
  intros O O' N N' S. pose proof (agrees r O N) as A. pose proof (agrees r' O' N') as A'. split.
  - intro H. destruct A as (c & ds & u & es & E & Ic & D & L & _ & _ & _ & _ & a & v & AA & _ & R & _).
    destruct A' as (c' & ds' & u' & es' & E' & Ic' & D' & L' & _ & _ & _ & _ & a' & v' & AA' & _ & R' & _).
    unfold level_si. rewrite AA, AA', E, E' in *. cbn [num_z height in_feet] in *. destruct (is_feet c), (is_feet c'); unfold rounds_to in *; lia.
  - intro H. destruct (Z_lt_le_dec (height (r_alt r)) (height (r_alt r'))) as [K|K]; [exact K|]. pose proof (level_order r' r O' O N' N K). lia.
Qed.
Lemma speed_exact r : si_agrees r -> ~ is_mach (r_speed r) -> rounds_to (velocity (r_speed r)) 10000000 (speed_si r).
Proof.
  intros (c & ds & u & es & _ & _ & _ & _ & E & Iu & D & L & a & v & _ & V & _ & R) M. unfold speed_si. rewrite E, V in *. cbn [velocity num_z is_mach] in *.
  destruct (N.eqb_spec u 75) as [K0|K0]; [exact R|]. destruct (N.eqb_spec u 78) as [K|K]; [unfold rounds_to in *; lia|]. exfalso. destruct Iu as [<-|[<-|[<-|[]]]]; try lia; now apply M.
Qed.
Theorem speed_order r r' : occurs G r -> occurs G r' -> r_alt r <> [] -> r_alt r' <> [] -> ~ is_mach (r_speed r) -> ~ is_mach (r_speed r') ->
  velocity (r_speed r) <= velocity (r_speed r') -> speed_si r <= speed_si r'.
Proof. intros O O' N N' M M' H. pose proof (speed_exact r (agrees r O N) M). pose proof (speed_exact r' (agrees r' O' N') M'). unfold rounds_to in *. lia. Qed.
Theorem mach_order r r' : occurs G r -> occurs G r' -> r_alt r <> [] -> r_alt r' <> [] -> is_mach (r_speed r) -> is_mach (r_speed r') ->
  mach (r_speed r) <= mach (r_speed r') -> height (r_alt r') <= height (r_alt r) -> speed_si r <= speed_si r'.
Proof.
  intros O O' N N' M M' H K. pose proof (level_order r' r O' O N' N K) as K1. pose proof (level_exact r' (agrees r' O' N')) as (_ & K2).
  destruct (agrees r O N) as (c & ds & u & es & _ & _ & _ & _ & E & _ & D & L & a & v & A & V & _ & R).
  destruct (agrees r' O' N') as (c' & ds' & u' & es' & _ & _ & _ & _ & E' & _ & D' & L' & a' & v' & A' & V' & _ & R').
  unfold level_si, speed_si in *. rewrite E, E', A, A', V, V' in *. cbn [is_mach mach num_z] in *. subst u u'. cbn [N.eqb Pos.eqb] in *.
  destruct R as (f & F & T), R' as (f' & F' & T'). pose proof (digits_len es 3 ltac:(lia) D). pose proof (digits_len es' 3 ltac:(lia) D').
  assert (Q : 10 ^ 3 = 1000) by reflexivity. exact (mach_mono (decimal es) (decimal es') a a' f f' v v' ltac:(lia) ltac:(lia) ltac:(lia) F F' T T').
Qed.
End G.
