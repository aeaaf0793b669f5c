(** * PropsWords: C103 — the words of a section only influence its text. *)
From Coq Require Import ZArith NArith List Bool String.
From Verif Require Import PyBase PyFloat Enums Syntax Tokenizer Ers Utils Parser SpecTokenizer SpecParser SpecGrammar SpecAccept SpecLayout SpecViable SpecRemoval PropsParser SpecWords Words.
Import List ListNotations.
Local Open Scope list_scope.
Local Open Scope nat_scope.

(** C103. In an accepted field, words of a section that cannot end it may be replaced by any others of this sort, in any number:
    the field is accepted, and the result differs only in the text of the section, which has the new words in place of the old. *)
Theorem C103_words : forall (G : geodesic) (depth depth' : nat) (f : pstr) (s : st) (pre : list (token * role)) (v : list token) (post : list (token * role)) (w : list pstr) (g : pstr),
  parse_field15 G depth f = Ok true s ->
  field_roles f = pre ++ map (fun t => (t, RText)) v ++ post -> v <> [] -> Forall (fun t => idle (t_base t, t_sub t)) v ->
  w <> [] -> Forall (fun x => idle (classify x)) w ->
  element_texts g = wordsof pre ++ w ++ wordsof post -> 3 * n_tokens g <= depth' + 1 ->
  exists s', parse_field15 G depth' g = Ok true s' /\ one_text (map t_text v) w (s_ers s) (s_ers s').
Proof. exact other_words. Qed.
Print Assumptions C103_words.

Definition some_words : pstr := $"N0450F350 ABC OAT low level GAT x y GAT DEF".
Example C103_example :
  exists s pre v post, parse_field15 flat 60 some_words = Ok true s /\ field_roles some_words = pre ++ map (fun t => (t, RText)) v ++ post /\
    map t_text v = [$"x"] /\ Forall (fun t => idle (t_base t, t_sub t)) v /\
    let w := [$"DCT"; $"VFR"; $"UL9"; $"STAY1"; $"IFPSTOP"; $"?!"] in
    Forall (fun x => idle (classify x)) w /\
    element_texts ($"N0450F350 ABC OAT low level GAT DCT VFR UL9 STAY1 IFPSTOP ?! y GAT DEF") = wordsof pre ++ w ++ wordsof post.
Proof.
  eexists. exists (firstn 6 (field_roles some_words)), [nth 6 (field_tokens some_words) (new_token [] 0 0)], (skipn 7 (field_roles some_words)).
  split; [vm_compute; reflexivity|]. split; [vm_compute; reflexivity|]. split; [vm_compute; reflexivity|].
  split; [repeat constructor; vm_compute; intuition discriminate|].
  split; [repeat constructor; vm_compute; intuition discriminate|]. vm_compute. reflexivity.
Qed.
(** Each of the restrictions is needed: a point after GAT, a keyword before a point, and a word that is too long. *)
Theorem C103_any_words_refuted :
  (exists s, parse_field15 flat 60 ($"N0450F350 ABC OAT low GAT x y GAT DEF") = Ok true s /\ List.length (e_recs (s_ers s)) = 5) /\
  (exists s, parse_field15 flat 60 ($"N0450F350 ABC OAT low GAT PNT y GAT DEF") = Ok false s) /\
  (exists s, parse_field15 flat 60 ($"N0450F350 ABC OAT x LMN GAT DEF") = Ok true s /\ List.length (e_recs (s_ers s)) = 5) /\
  (exists s, parse_field15 flat 60 ($"N0450F350 ABC OAT GAT LMN GAT DEF") = Ok false s) /\
  (exists s, parse_field15 flat 60 ($"N0450F350 ABC OAT x GAT DEF") = Ok true s) /\
  (exists s, parse_field15 flat 60 ($"N0450F350 ABC OAT abcdefghijklmnopqrstuvwxyz GAT DEF") = Ok false s).
Proof.
  repeat match goal with |- _ /\ _ => split | |- exists _, _ /\ _ => eexists; split; [vm_compute; reflexivity|vm_compute; reflexivity] | |- exists _, _ => eexists; vm_compute; reflexivity end.
Qed.
Print Assumptions C103_any_words_refuted.
