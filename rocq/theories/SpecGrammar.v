(** * SpecGrammar: the language of accepted field-15 token sequences.

    A field is a sequence of steps; each step consists of one or more consecutive tokens
    and a step may only follow certain steps. Nothing here refers to the parser. *)
From Coq Require Import ZArith NArith List Bool String.
From Verif Require Import PyBase Enums Tokenizer SpecNum SpecParser.
Import List ListNotations.
Local Open Scope list_scope.
Local Open Scope nat_scope.

(** ** Values of elements *)
Definition sub_str (s : pstr) (a n : nat) : pstr := firstn n (skipn a s).

(** A speed element: Mddd, Kdddd or Ndddd, then one or two levels (Fddd, Addd, Sdddd, Mdddd). *)
Definition speed_len (s : pstr) : nat := match s with c :: _ => if N.eqb c 77 then 4 else 5 | [] => 0 end.
Definition level_len (s : pstr) : nat := match s with c :: _ => if is_feet c then 4 else 5 | [] => 0 end.
Definition speed_part (s : pstr) : pstr := firstn (speed_len s) s.
Definition after_speed (s : pstr) : pstr := skipn (speed_len s) s.
Definition first_level (s : pstr) : pstr := firstn (level_len (after_speed s)) (after_speed s).
Definition second_level (s : pstr) : pstr := skipn (level_len (after_speed s)) (after_speed s).
(** A flight level must be a multiple of 5; other levels are free. *)
Definition fl_ok (l : pstr) : Prop := match l with c :: ds => c = 70%N -> (decimal ds mod 5 = 0)%Z | [] => True end.
(** The target level of a cruise climb is only checked after a speed in K or N and a first level in F or A. *)
Definition target_checked (s : pstr) : Prop :=
  match s, after_speed s with c :: _, d :: _ => c <> 77%N /\ is_feet d = true | _, _ => False end.
Definition levels_ok (t : token) : Prop :=
  match t_base t with
  | F15_SPEED_ALTITUDE | F15_SPEED_ALTITUDE_PLUS => fl_ok (first_level (t_text t))
  | F15_SPEED_ALTITUDE_ALTITUDE =>
      fl_ok (first_level (t_text t)) /\ (target_checked (t_text t) -> fl_ok (second_level (t_text t))) /\ ~ raising_text (t_text t)
  | _ => True
  end.

(** Coordinates and bearings. *)
Definition deg_ok (s : pstr) (mx : Z) : Prop := (decimal s <= mx)%Z.
Definition deg_min_ok (d m : pstr) (mx : Z) : Prop := (decimal m < 60 /\ decimal d * 60 + decimal m <= mx * 60)%Z.
Definition bearing_part (s : pstr) : pstr := sub_str s (length s - 6) 3.
Definition angles_ok (t : token) : Prop :=
  let s := t_text t in
  match t_sub t with
  | F15_SB_PRP_BD => deg_ok (bearing_part s) 360
  | F15_SB_LL_DEG => deg_ok (sub_str s 0 2) 90 /\ deg_ok (sub_str s 3 3) 180
  | F15_SB_LL_MIN => deg_min_ok (sub_str s 0 2) (sub_str s 2 2) 90 /\ deg_min_ok (sub_str s 5 3) (sub_str s 8 2) 180
  | F15_SB_LLBD_DEG => (deg_ok (sub_str s 0 2) 90 /\ deg_ok (sub_str s 3 3) 180) /\ deg_ok (bearing_part s) 360
  | F15_SB_LLBD_MIN =>
      (deg_min_ok (sub_str s 0 2) (sub_str s 2 2) 90 /\ deg_min_ok (sub_str s 5 3) (sub_str s 8 2) 180) /\ deg_ok (bearing_part s) 360
  | _ => True
  end.
(** A point given by coordinates or by bearing and distance. *)
Definition computed_point (sb : sub_type) : bool :=
  match sb with
  | F15_SB_PRP_BD | F15_SB_LL_DEG | F15_SB_LL_MIN | F15_SB_LLBD_DEG | F15_SB_LLBD_MIN => true
  | _ => false
  end.

(** ** Break sections: VFR ... IFR, OAT ... GAT, IFPSTOP ... IFPSTART *)
Inductive kind := KVfr | KOat | KIfpstop.
Definition begins (sb : sub_type) : option kind :=
  match sb with F15_SB_VFR => Some KVfr | F15_SB_OAT => Some KOat | F15_SB_IFPSTOP => Some KIfpstop | _ => None end.
Definition ends (k : kind) (sb : sub_type) : bool :=
  match k, sb with
  | KVfr, F15_SB_IFR | KOat, F15_SB_GAT | KIfpstop, F15_SB_IFPSTART => true
  | _, _ => false
  end.
(** What the tokens after an end keyword make of it: still text, the end of the section, or an error.
    The section ends only before a point; after IFR the point needs a new speed. *)
Inductive resumption := Inside | Resumes | Wrong.
Definition resume (k : kind) (after : list token) : resumption :=
  match after with
  | p :: r =>
      match t_base p with
      | F15_POINT =>
          match k with
          | KVfr =>
              match r with
              | [] => Wrong
              | sl :: r' =>
                  match t_base sl with
                  | F15_SLASH =>
                      match r' with
                      | sp :: _ => match t_base sp with F15_SPEED_ALTITUDE | F15_SPEED_VFR => Resumes | _ => Wrong end
                      | [] => Wrong
                      end
                  | _ => Inside
                  end
              end
          | _ => Resumes
          end
      | _ => Inside
      end
  | [] => Inside
  end.
(** [txt] is the text of a section of kind [k] followed by [rest]: it runs to the first end keyword
    that ends the section, or to the end of the field. *)
Fixpoint section (k : kind) (txt rest : list token) : Prop :=
  match txt with
  | [] => rest = []
  | t :: txt' =>
      t_base t <> F15_TOO_LONG /\
      (if ends k (t_sub t) then
         match resume k (txt' ++ rest) with
         | Inside => section k txt' rest
         | Resumes => txt' = []
         | Wrong => False
         end
       else section k txt' rest)
  end.

(** ** Steps *)
Inductive step :=
| SFirst (t : token)                  (* speed/level at the start *)
| SFirstVfr (t : token)               (* speed/VFR at the start *)
| SDct (t : token) | SRoute (t : token) | SPoint (t : token)
| SC (t : token)                      (* C not followed by '/' *)
| SSid (t : token) | SStar (t : token) | STrunc (t : token)
| SSpeed (sl t : token)               (* / speed/level *)
| SVfr (sl t : token)                 (* / speed/VFR *)
| SBreak (t : token)                  (* VFR, OAT, IFPSTOP *)
| SText (txt : list token)            (* the tokens of the section *)
| SRejoin (t : token)                 (* the point of "IFR point/speed/VFR" *)
| SClimb (c sl t : token)             (* C / point *)
| SClimbTo (sl t : token)             (* / speed/levels of a cruise climb *)
| SStay (st sl tm : token).           (* STAYn / time *)
Definition tokens_of (s : step) : list token :=
  match s with
  | SFirst t | SFirstVfr t | SDct t | SRoute t | SPoint t | SC t | SSid t | SStar t | STrunc t | SBreak t | SRejoin t => [t]
  | SSpeed sl t | SVfr sl t | SClimbTo sl t => [sl; t]
  | SClimb c sl t => [c; sl; t]
  | SStay st sl tm => [st; sl; tm]
  | SText txt => txt
  end.
Definition yield (ss : list step) : list token := flat_map tokens_of ss.

(** Where we are in the field. *)
Inductive ctx :=
| XStart | XAdep                      (* before and after the first speed/level *)
| XDct | XRoute | XC | XSid | XStay
| XPoint (computed : bool)            (* after a point and its modifiers *)
| XClimb (computed : bool)            (* after C/point *)
| XText (k : kind)                    (* after the beginning of a break section *)
| XBreak (k : kind)                   (* after its text *)
| XThenSpeed (computed : bool) | XThenVfr      (* after "IFR point" *)
| XEnd.
Definition after (c : ctx) (s : step) : ctx :=
  match s with
  | SFirst _ => XAdep
  | SFirstVfr _ | SVfr _ _ => XText KVfr
  | SDct _ => XDct
  | SRoute _ => XRoute
  | SPoint t => match c with XBreak KVfr => XThenSpeed (computed_point (t_sub t)) | _ => XPoint (computed_point (t_sub t)) end
  | SC _ => XC
  | SSid _ => XSid
  | SStar _ | STrunc _ => XEnd
  | SSpeed _ _ => match c with XThenSpeed b => XPoint b | _ => c end
  | SBreak t => match begins (t_sub t) with Some k => XText k | None => XEnd end
  | SText _ => match c with XText k => XBreak k | _ => XEnd end
  | SRejoin _ => XThenVfr
  | SClimb _ _ t => XClimb (computed_point (t_sub t))
  | SClimbTo _ _ => match c with XClimb b => XPoint b | _ => XEnd end
  | SStay _ _ _ => XStay
  end.
(** Which steps may occur where. *)
Definition follows (c : ctx) (s : step) : bool :=
  match c, s with
  | XStart, (SFirst _ | SFirstVfr _) => true
  | XAdep, (SDct _ | SPoint _ | SSid _ | SStar _ | STrunc _) => true
  | XDct, (SPoint _ | SC _ | SClimb _ _ _ | STrunc _) => true
  | XRoute, (SC _ | SClimb _ _ _ | STrunc _) => true
  | XRoute, SPoint t => negb (computed_point (t_sub t))
  | XC, (SBreak _ | SDct _ | SStay _ _ _ | SC _ | SClimb _ _ _ | SPoint _ | SRoute _ | SStar _ | STrunc _) => true
  | XSid, (SPoint _ | SRoute _ | SStar _ | STrunc _) => true
  | XStay, (SBreak _ | SDct _ | SC _ | SClimb _ _ _ | SPoint _ | SRoute _ | SStar _ | STrunc _) => true
  | XPoint _, (SSpeed _ _ | SVfr _ _ | SBreak _ | SDct _ | SStay _ _ _ | SC _ | SClimb _ _ _ | SPoint _ | SStar _ | STrunc _) => true
  | XPoint b, SRoute _ => negb b
  | XClimb _, SClimbTo _ _ => true
  | XText _, SText _ => true
  | XBreak KVfr, (SPoint _ | SRejoin _) => true
  | XBreak _, SPoint _ => true
  | XThenSpeed _, SSpeed _ _ => true
  | XThenVfr, SVfr _ _ => true
  | _, _ => false
  end.
(** The types and values of the tokens of a step in context [c], followed by [rest]. *)
Definition proper (c : ctx) (s : step) (rest : list token) : Prop :=
  match s with
  | SFirst t => t_base t = F15_SPEED_ALTITUDE /\ levels_ok t /\ rest <> []
  | SFirstVfr t => t_base t = F15_SPEED_VFR
  | SDct t => t_base t = F15_DCT
  | SRoute t => t_base t = F15_ROUTE
  | SPoint t => t_base t = F15_POINT /\ angles_ok t
  | SC t => t_base t = F15_C /\ match rest with n :: _ => t_base n <> F15_SLASH | [] => True end
  | SSid t => t_base t = F15_SID \/ t_base t = F15_SID_STAR
  | SStar t => (t_base t = F15_STAR \/ (t_base t = F15_SID_STAR /\ c <> XAdep)) /\ rest = []
  | STrunc t => t_base t = F15_TRUNCATE /\ rest = []
  | SSpeed sl t => t_base sl = F15_SLASH /\ t_base t = F15_SPEED_ALTITUDE /\ levels_ok t
  | SVfr sl t => t_base sl = F15_SLASH /\ t_base t = F15_SPEED_VFR
  | SBreak t => t_base t = F15_BREAK_START /\ begins (t_sub t) <> None
  | SText txt => txt <> [] /\ match c with XText k => section k txt rest | _ => False end
  | SRejoin t => t_base t = F15_POINT
  | SClimb c sl t => t_base c = F15_C /\ t_base sl = F15_SLASH /\ angles_ok t
  | SClimbTo sl t => t_base sl = F15_SLASH /\ (t_base t = F15_SPEED_ALTITUDE_ALTITUDE \/ t_base t = F15_SPEED_ALTITUDE_PLUS) /\ levels_ok t
  | SStay st sl tm => t_base st = F15_STAY /\ t_base sl = F15_SLASH /\ t_base tm = F15_STAY_TIME
  end.
Definition may_end (c : ctx) : bool :=
  match c with XStart | XClimb _ | XThenSpeed _ | XThenVfr => false | _ => true end.
Fixpoint derives (c : ctx) (ss : list step) : Prop :=
  match ss with
  | [] => may_end c = true
  | s :: r => follows c s = true /\ proper c s (yield r) /\ derives (after c s) r
  end.
(** The accepted language. *)
Definition sentence (ts : list token) : Prop := exists ss, derives XStart ss /\ yield ss = ts.
