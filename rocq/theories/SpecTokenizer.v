(** * SpecTokenizer: what tokenizing means, independent of the algorithm. *)
From Coq Require Import ZArith NArith List Bool Sorted.
From Verif Require Import PyBase Enums Tokenizer.
Import ListNotations.
Open Scope Z_scope.

(** The character at position [i] of [s]. *)
Definition char_at (s : pstr) (i : Z) (c : N) : Prop := 0 <= i /\ nth_error s (Z.to_nat i) = Some c.

(** The indices of a token address its text: Python's [s[start:end] == text]. *)
Definition addresses (s : pstr) (t : token) : Prop :=
  0 <= t_start t < t_end t /\ t_end t <= zlen s /\
  slice s (Some (t_start t)) (Some (t_end t)) = t_text t.

(** Position [i] lies inside token [t]. *)
Definition inside (t : token) (i : Z) : Prop := t_start t <= i < t_end t.

(** A separator of the tokenizer. *)
Definition separator (w : pstr) (c : N) : Prop := In c w.

(** A maximal run of non-separators. *)
Definition maximal_run (w s : pstr) (t : token) : Prop :=
  (forall c, In c (t_text t) -> ~ separator w c) /\
  (forall c, char_at s (t_start t - 1) c -> separator w c) /\
  (forall c, char_at s (t_end t) c -> separator w c).

Definition lone_slash (w : pstr) (t : token) : Prop := separator w slash /\ t_text t = [slash].

(** In source order without overlap. *)
Definition in_order (l : list token) : Prop := StronglySorted (fun a b => t_end a <= t_start b) l.

(** The complete specification of a list of tokens for [s] with separators [w]. *)
Record tokenization (w s : pstr) (l : list token) : Prop := {
  tkz_addresses : forall t, In t l -> addresses s t;
  tkz_order : in_order l;
  tkz_cover : forall i c, char_at s i c ->
                ((exists t, In t l /\ inside t i) <-> (~ separator w c \/ c = slash));
  tkz_shape : forall t, In t l -> lone_slash w t \/ maximal_run w s t;
  tkz_untyped : forall t, In t l -> t_base t = F15_UNKNOWN /\ t_sub t = F15_SB_UNKNOWN }.

(** The texts of the tokens of a string. *)
Definition texts (w s : pstr) : list pstr := map t_text (tk_list (tokenize_string w s)).

(** [" ".join(l)] *)
Fixpoint join_sp (l : list pstr) : pstr :=
  match l with
  | [] => []
  | [x] => x
  | x :: r => x ++ 32%N :: join_sp r
  end.

(** The results of [k] successive calls of get_next_token. *)
Fixpoint nexts (k : nat) (ts : tokens) : list (option token) :=
  match k with
  | O => []
  | S j => snd (get_next_token ts) :: nexts j (fst (get_next_token ts))
  end.
(** The results of [k] successive calls of get_previous_token. *)
Fixpoint prevs (k : nat) (ts : tokens) : list (option token) :=
  match k with
  | O => []
  | S j => snd (get_previous_token ts) :: prevs j (fst (get_previous_token ts))
  end.
