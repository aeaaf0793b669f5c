(** * PropsSeparators: parsing with other separators, and lists of tokens made by hand. *)
From Coq Require Import ZArith NArith List Bool String Lia.
From Verif Require Import PyBase PyFloat Enums Tokenizer Ers Utils Parser SpecTokenizer SpecNum SpecParser SpecGrammar SpecAccept SpecReader SpecComplete SpecSeparators Separators.
From Verif Require Import PropsParser.
Import List ListNotations.
Local Open Scope list_scope.
Local Open Scope Z_scope.

(** C106. Only the set of separators matters, not their order or repetitions, and of that only the part that occurs in the field. *)
Theorem C106_set : forall (G : geodesic) (depth : nat) (w w' f : pstr), (forall c, In c f -> In c w <-> In c w') ->
  list_with w f = list_with w' f /\ parse_with G depth w f = parse_with G depth w' f.
Proof. intros G depth w w' f H. exact (conj (f_equal tk_list (tokens_same w w' f H)) (parse_same G depth w w' f H)). Qed.
Print Assumptions C106_set.

(** Without set_whitespace the tokens are those of the documented separators exactly when every '/' stands by itself, and then so is everything else. *)
Theorem C106_default : forall (G : geodesic) (depth : nat) (f : pstr),
  (list_with default_whitespace f = list_with f15_whitespace f <-> slashes_apart f) /\
  (slashes_apart f -> parse_with G depth default_whitespace f = parse_field15 G depth f).
Proof. intros G depth f. exact (conj (apart_iff f) (apart_parse G depth f)). Qed.
Print Assumptions C106_default.

(** Otherwise a field can be accepted with the documented separators only, or with the default ones only. *)
Definition with_slash : pstr := $"N0450F350 ABC/N0400F300 DEF".
Definition slash_in_text : pstr := $"N0450F350 ABC VFR a/IFR DEF/N0450F350 ?".
Theorem C106_default_matters :
  (exists s s', parse_field15 flat 100 with_slash = Ok true s /\ parse_with flat 100 default_whitespace with_slash = Ok false s') /\
  (exists s s', parse_field15 flat 100 slash_in_text = Ok false s /\ parse_with flat 100 default_whitespace slash_in_text = Ok true s').
Proof. split; do 2 eexists; split; vm_compute; reflexivity. Qed.
Print Assumptions C106_default_matters.

(** Whatever the separators, the parser sees the list of tokens only, and of each token its text and positions only. *)
Theorem C106_list : forall (G : geodesic) (depth : nat) (w f : pstr) (l : list token),
  map typed l = map typed (list_with w f) -> parse_with G depth w f = parse_list G depth l.
Proof. intros G depth w f l H. exact (eq_trans (with_list G depth w f) (eq_sym (list_types G depth l _ H))). Qed.
Print Assumptions C106_list.

(** The result for any list of tokens: the grammar of C24 and the machine of C57 say everything about it. *)
Theorem C106_total : forall (G : geodesic) (depth : nat) (ts : list token), ts <> [] -> (3 * List.length ts <= depth + 1)%nat ->
  match reading (map typed ts) with
  | Some (Gives l e) => exists s, parse_list G depth ts = Ok (match e with [] => true | _ => false end) s /\ s_ers s = ers_of G l e
  | Some Raises => exists s, parse_list G depth ts = Exn ValueError s
  | None => False
  end.
Proof. exact list_total. Qed.
Print Assumptions C106_total.
Theorem C106_accepted : forall (G : geodesic) (depth : nat) (ts : list token), ts <> [] -> (3 * List.length ts <= depth + 1)%nat ->
  ((exists s, parse_list G depth ts = Ok true s) <-> sentence (map typed ts)).
Proof. exact list_accepts. Qed.
Print Assumptions C106_accepted.

(** A token that contains a '/' and more makes the field fail, unless it is text under VFR or between IFPSTOP and IFPSTART. *)
Theorem C106_slash : forall (G : geodesic) (depth : nat) (ts : list token) (s : st), parse_list G depth ts = Ok true s ->
  forall t, In (t, ROut) (roles (map typed ts)) -> In slash (t_text t) -> t_text t = [slash].
Proof. exact list_slash. Qed.
Print Assumptions C106_slash.

(** A field whose slashes stand by themselves; tokens of a comma separated field; a token with a slash inside text. *)
Definition spaced : pstr := $"N0450F350 ABC / N0400F300 DEF".
Definition commas : pstr := $"N0450F350,ABC,UL9,DEF".
Example C106_example : slashes_apart spaced /\ ~ slashes_apart with_slash /\ list_with default_whitespace spaced <> [] /\
  (exists s, parse_with flat 100 default_whitespace spaced = Ok true s) /\
  (exists s, parse_with flat 100 [44%N] commas = Ok true s /\ List.length (e_recs (s_ers s)) = 5%nat) /\
  (3 * List.length (list_with [44%N] commas) <= 100 + 1)%nat /\
  In slash (flat_map (fun x => match snd x with RText => t_text (fst x) | _ => [] end) (roles (map typed (list_with default_whitespace slash_in_text)))).
Proof.
  split; [apply apart_iff; vm_compute; reflexivity|]. split; [intro H; apply apart_iff in H; vm_compute in H; discriminate H|]. split; [vm_compute; discriminate|].
  split; [eexists; vm_compute; reflexivity|]. split; [eexists; split; vm_compute; reflexivity|]. split; [vm_compute; lia|]. vm_compute. tauto.
Qed.
