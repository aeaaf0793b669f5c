(** * SpecXml: well-formed XML elements, and the element a route sequence should be.

    The syntax is that of an element in XML 1.0 (fifth edition) in a document without a
    document type declaration; numbers in brackets are the productions. *)
From Coq Require Import ZArith NArith List Bool String.
From Verif Require Import PyBase PyFloat Enums Regex Ers Xml.
Import List ListNotations.
Local Open Scope list_scope.

(** ** Characters and names *)
(** [2] Char, [3] S, [4] NameStartChar, [4a] NameChar *)
Definition xml_char (c : N) : bool := in_ranges c [(9, 10); (13, 13); (32, 55295); (57344, 65533); (65536, 1114111)]%N.
Definition xml_space (c : N) : bool := in_ranges c [(32, 32); (9, 10); (13, 13)]%N.
Definition name_start : list (N * N) :=
  [(58, 58); (65, 90); (95, 95); (97, 122); (192, 214); (216, 246); (248, 767); (880, 893); (895, 8191); (8204, 8205); (8304, 8591);
   (11264, 12271); (12289, 55295); (63744, 64975); (65008, 65533); (65536, 983039)]%N.
Definition name_more : list (N * N) := name_start ++ [(45, 46); (48, 57); (183, 183); (768, 879); (8255, 8256)]%N.
(** [5] Name *)
Definition xml_name (s : pstr) : Prop :=
  exists c r, s = c :: r /\ in_ranges c name_start = true /\ forall d, In d r -> in_ranges d name_more = true.
Definition spaces (s : pstr) : Prop := forall c, In c s -> xml_space c = true.
Definition infix (x s : pstr) : Prop := exists a b, s = a ++ x ++ b.

(** ** References: [66] CharRef, [68] EntityRef (the five predefined entities) *)
Definition dec_value (ds : pstr) : N := fold_left (fun n d => 10 * n + (d - 48))%N ds 0%N.
Definition hex_digit (d : N) : N := (if d <=? 57 then d - 48 else if d <=? 70 then d - 55 else d - 87)%N.
Definition hex_value (ds : pstr) : N := fold_left (fun n d => 16 * n + hex_digit d)%N ds 0%N.
Inductive reference : N -> pstr -> Prop :=
| rf_amp : reference 38%N ($"&amp;")
| rf_lt : reference 60%N ($"&lt;")
| rf_gt : reference 62%N ($"&gt;")
| rf_apos : reference 39%N ($"&apos;")
| rf_quot : reference 34%N ($"&quot;")
| rf_dec ds : ds <> [] -> (forall d, In d ds -> in_ranges d [(48, 57)]%N = true) -> xml_char (dec_value ds) = true ->
    reference (dec_value ds) ($"&#" ++ ds ++ $";")
| rf_hex ds : ds <> [] -> (forall d, In d ds -> in_ranges d [(48, 57); (65, 70); (97, 102)]%N = true) -> xml_char (hex_value ds) = true ->
    reference (hex_value ds) ($"&#x" ++ ds ++ $";").

(** ** Values: [value stop v s] says that the text [s] stands for the value [v].
    [stop] is the quote of an attribute value; '<' and '&' never stand for themselves. *)
Inductive value (stop : list N) (v : N -> N) : pstr -> pstr -> Prop :=
| ru_nil : value stop v [] []
| ru_char c a s : xml_char c = true -> ~ In c [60; 38]%N -> ~ In c stop -> value stop v a s -> value stop v (v c :: a) (c :: s)
| ru_ref c x a s : reference c x -> value stop v a s -> value stop v (c :: a) (x ++ s).
(** White space in an attribute value is read as a space (3.3.3); a carriage return in text as a line feed (2.11;
    that a carriage return and a line feed together are one is left out, as the output has no carriage return). *)
Definition att_norm (c : N) : N := if xml_space c then 32%N else c.
Definition text_norm (c : N) : N := if N.eqb c 13 then 10%N else c.

(** ** Nodes *)
Inductive xml :=
| Elem (name : pstr) (atts : list (pstr * pstr)) (kids : list xml)
| Text (s : pstr) | CData (s : pstr) | Comment (s : pstr) | Instruction (target s : pstr).
Definition starts_with_text (l : list xml) : bool := match l with Text _ :: _ => true | _ => false end.
(** [41] Attribute, [10] AttValue *)
Inductive attributes : list (pstr * pstr) -> pstr -> Prop :=
| at_nil : attributes [] []
| at_cons n v l q x w w1 w2 s : In q [34; 39]%N -> spaces w -> w <> [] -> xml_name n -> spaces w1 -> spaces w2 -> value [q] att_norm v x -> attributes l s ->
    attributes ((n, v) :: l) (w ++ n ++ w1 ++ [61]%N ++ w2 ++ [q] ++ x ++ [q] ++ s).
(** [39] element with [40] STag, [42] ETag, [44] EmptyElemTag; [43] content with [14] CharData, [15] Comment, [16] PI, [18] CDSect *)
Inductive element : xml -> pstr -> Prop :=
| el_tag n atts kids a w1 c w2 : xml_name n -> attributes atts a -> NoDup (map fst atts) -> spaces w1 -> content kids c -> spaces w2 ->
    element (Elem n atts kids) ([60]%N ++ n ++ a ++ w1 ++ [62]%N ++ c ++ [60; 47]%N ++ n ++ w2 ++ [62]%N)
| el_empty n atts a w1 : xml_name n -> attributes atts a -> NoDup (map fst atts) -> spaces w1 ->
    element (Elem n atts []) ([60]%N ++ n ++ a ++ w1 ++ [47; 62]%N)
with content : list xml -> pstr -> Prop :=
| co_nil : content [] []
| co_text v t l s : value []  text_norm v t -> ~ infix ($"]]>") t -> t <> [] -> starts_with_text l = false -> content l s -> content (Text v :: l) (t ++ s)
| co_elem n atts kids l x s : element (Elem n atts kids) x -> content l s -> content (Elem n atts kids :: l) (x ++ s)
| co_cdata t l s : (forall c, In c t -> xml_char c = true) -> ~ infix ($"]]>") t -> content l s -> content (CData t :: l) ($"<![CDATA[" ++ t ++ $"]]>" ++ s)
| co_comment t l s : (forall c, In c t -> xml_char c = true) -> ~ infix ($"--") (t ++ $"-") -> content l s -> content (Comment t :: l) ($"<!--" ++ t ++ $"-->" ++ s)
| co_pi n w t l s : xml_name n -> ~ (exists x m y, n = [x; m; y] /\ In x ($"xX") /\ In m ($"mM") /\ In y ($"lL")) ->
    spaces w -> (t = [] \/ w <> []) -> (forall c r, t = c :: r -> xml_space c = false) -> (forall c, In c t -> xml_char c = true) -> ~ infix ($"?>") t -> content l s ->
    content (Instruction n t :: l) ($"<?" ++ n ++ w ++ t ++ $"?>" ++ s).
(** [s] is the element [e], with white space around it. *)
Definition well_formed (e : xml) (s : pstr) : Prop := exists a x b, s = a ++ x ++ b /\ spaces a /\ spaces b /\ element e x.

(** ** The element of a route sequence *)
Definition kids_text (s : pstr) : list xml := match s with [] => [] | _ => [Text s] end.
(** A type in the text of a record: class and name; from Python 3.11 on its number. *)
Definition base_text (v : py_version) (b : base_type) : pstr := match v with Py310 => $"TokenBaseType." ++ base_name b | Py311 => str_of_Z (base_code b) end.
Definition sub_text (v : py_version) (b : sub_type) : pstr := match v with Py310 => $"TokenSubType." ++ sub_name b | Py311 => str_of_Z (sub_code b) end.
Definition record_atts (v : py_version) (r : rrec) (last : pstr * pstr) : list (pstr * pstr) :=
  [ ($"start_index", str_of_Z (r_start r)); ($"end_index", str_of_Z (r_end r));
    ($"base_type", base_text v (r_base r)); ($"sub_type", sub_text v (r_sub r));
    ($"speed", r_speed r); ($"speed_si", fmt_num (r_speed_si r)); ($"altitude", r_alt r); ($"altitude_si", fmt_num (r_alt_si r));
    ($"bearing", fmt_2f (r_brg r)); ($"distance", fmt_2f (r_dist r)); ($"flight_rules", r_rules r); ($"stay_time", str_of_Z (r_stay r));
    ($"altitude_cruise_to", r_cto r); ($"altitude_cruise_to_si", fmt_num (r_cto_si r));
    ($"latitude", fmt_2f (r_lat r)); ($"longitude", fmt_2f (r_lon r)); last ].
Definition record_elem (v : py_version) (r : rrec) : xml := Elem ($"ers_record") (record_atts v r ($"break_text", r_break r)) (kids_text (r_name r)).
Definition error_elem (v : py_version) (r : rrec) : xml := Elem ($"error_record") (record_atts v r ($"error_text", r_err r)) (kids_text (r_name r)).
(** The nodes other than white space. *)
Definition blank_text (x : xml) : bool := match x with Text s => forallb xml_space s | _ => false end.
Definition nodes (l : list xml) : list xml := filter (fun x => negb (blank_text x)) l.
(** The root: the derived rules, the records, and the errors if any. *)
Definition is_ers (v : py_version) (x : ers) (e : xml) : Prop :=
  exists kids, e = Elem ($"ers") [] kids /\
    match e_errs x with
    | [] => nodes kids = Elem ($"derived_flight_rules") [] (kids_text (e_rules x)) :: map (record_elem v) (e_recs x)
    | errs => exists ee, nodes kids = Elem ($"derived_flight_rules") [] (kids_text (e_rules x)) :: map (record_elem v) (e_recs x) ++ [Elem ($"ers_errors") [] ee] /\
        nodes ee = map (error_elem v) errs
    end.

(** Fields whose characters are XML characters that need no escape: no less-than sign, ampersand or double quote, and no "]]>". *)
Definition no_escape (field : pstr) : Prop :=
  (forall c, In c field -> xml_char c = true /\ c <> 60%N /\ c <> 38%N /\ c <> 34%N) /\ ~ infix ($"]]>") field.
