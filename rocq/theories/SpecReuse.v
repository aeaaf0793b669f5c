(** * SpecReuse: reading a field into a route sequence that has been used before.

    The machine of SpecReader begins with the records and reports that are already there instead of a lone
    ADEP.  Nothing here refers to the parser. *)
From Coq Require Import ZArith NArith List Bool String.
From Verif Require Import PyBase Enums Tokenizer SpecNum SpecParser SpecGrammar SpecDiagnosis SpecReader.
Import List ListNotations.
Local Open Scope list_scope.
Local Open Scope Z_scope.

(** The records [l] and the reports [e] of a sequence. *)
Definition notes_of (l : list item) (e : list (token * Z)) : notes := mkNotes (removelast l) (last l (aero [])) e.
Definition begin_on (s0 : notes) (ts : list token) : ending :=
  match ts with
  | [] => Done s0
  | t :: r =>
      match t_base t with
      | F15_SPEED_VFR | F15_SPEED_ALTITUDE =>
          match start t [] s0 r with
          | Goes k s ts' => play (patience ts) k s ts'
          | Breaks s => Broken s
          end
      | _ => play (patience ts) [JSync] (report t [1] s0) r
      end
  end.
Definition reading_on (l : list item) (e : list (token * Z)) (ts : list token) : option outcome :=
  match begin_on (notes_of l e) ts with
  | Done s => let (l', e') := conclude ts s in Some (Gives l' e')
  | Broken _ => Some Raises
  | Unfinished => None
  end.

(** ** Fields that are read as on their own *)
(** The field begins with speed/VFR, or with speed/level and then DCT, a point or a STAR, or is speed/level T. *)
Definition alike (ts : list token) : bool :=
  match ts with
  | t :: r =>
      match t_base t with
      | F15_SPEED_VFR => true
      | F15_SPEED_ALTITUDE =>
          match r with
          | u :: r' => match t_base u with F15_DCT | F15_POINT | F15_STAR => true
                       | F15_TRUNCATE => match r' with [] => true | _ => false end
                       | _ => false end
          | [] => false
          end
      | _ => false
      end
  | [] => false
  end.
(** The second element may be the name of a SID. *)
Definition sid_second (ts : list token) : bool :=
  match ts with _ :: u :: _ => match t_base u with F15_SID | F15_SID_STAR => true | _ => false end | _ => false end.

(** ** What the old records keep *)
(** The last record of the old route gets the speed and the level the new one begins with (and rules IFR, if there is a level);
    the first record gets rules VFR when the new route begins with speed/VFR. *)
Definition turned_vfr (i : item) : item := n_last (rules ($"VFR") (mkNotes [] i [])).
Definition resumed (ts : list token) (l : list item) : list item :=
  match ts with
  | t :: _ =>
      match t_base t with
      | F15_SPEED_VFR =>
          match removelast l ++ [flies (speed_part (t_text t)) ($"F050") (last l (aero []))] with i :: r => turned_vfr i :: r | [] => [] end
      | _ => removelast l ++ [n_last (speeds t (mkNotes [] (last l (aero [])) []))]
      end
  | [] => l
  end.
