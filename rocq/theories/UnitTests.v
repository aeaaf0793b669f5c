(** * UnitTests: generated by tools/gen_unit_tests.py from UnitTests/test_F15Parser.py.
    Validation of the model only (tests, not proofs): every (input, expected output)
    pair of the project's own suite is replayed on the model by computation. *)
From Coq Require Import ZArith NArith List Bool String.
From Coq Require Import Floats.SpecFloat.
From Verif Require Import PyBase PyFloat Ers Utils Parser.
Import ListNotations.
Open Scope string_scope.

(** Any oracle will do: the expected strings do not depend on bearings or distances. *)
Definition test_geo : geodesic := mkGeo (fun a b _ _ => (a, b)) (fun _ _ _ _ => (S754_zero false, S754_zero false)).

Definition case := (string * list (nat * string) * option nat * list (nat * string))%type.
Definition opt_eqb (o : option pstr) (s : string) : bool :=
  match o with Some x => pstr_eqb x (of_str s) | None => false end.
Definition check (c : case) : bool :=
  let '(inp, recs, nerr, errs) := c in
  match parse_field15 test_geo 1000 (of_str inp) with
  | Ok b s =>
      let e := s_ers s in
      forallb (fun p => opt_eqb (option_map unit_test_only (nth_error (e_recs e) (fst p))) (snd p)) recs
      && match nerr with
         | Some k => Nat.eqb (List.length (e_errs e)) k && Bool.eqb b (Nat.eqb k 0)
         | None => true
         end
      && forallb (fun p => opt_eqb (option_map r_err (nth_error (e_errs e) (fst p))) (snd p)) errs
  | Exn _ _ => false
  end.

Definition cases : list case := [
  (* :21 *) ("", [(0%nat, "ADEP"); (1%nat, "ADES")], Some 1%nat, [(0%nat, "Field 15 is empty")]);
  (* :28 *) ("B9", [(0%nat, "ADEP"); (1%nat, "ADES")], Some 1%nat, [(0%nat, "The first Field 15 element must be a SPEED/LEVEL and not 'B9'")]);
  (* :35 *) ("N0450F350", [(0%nat, "ADEP IFR N0450 F350"); (1%nat, "ADES IFR")], Some 1%nat, [(0%nat, "Field 15 contains no route description")]);
  (* :42 *) ("N0450VFR", [(0%nat, "ADEP VFR N0450 F050"); (1%nat, "VFR VFR N0450 F050"); (2%nat, "ADES VFR")], Some 0%nat, []);
  (* :49 *) ("N0450VFR THIS IS VFR TEXT", [(0%nat, "ADEP VFR N0450 F050"); (1%nat, "VFR VFR N0450 F050 THIS IS VFR TEXT"); (2%nat, "ADES VFR")], Some 0%nat, []);
  (* :57 *) ("N0450F350 6B6B", [(0%nat, "ADEP IFR N0450 F350"); (1%nat, "ADES IFR")], Some 1%nat, [(0%nat, "The element '6B6B' is an unrecognised Field 15 element")]);
  (* :64 *) ("N0450F350 /", [(0%nat, "ADEP IFR N0450 F350"); (1%nat, "ADES IFR")], Some 1%nat, [(0%nat, "The first SPEED/LEVEL cannot be followed by the element '/'")]);
  (* :71 *) ("N0450F350 VFR", [(0%nat, "ADEP IFR N0450 F350"); (1%nat, "ADES IFR")], Some 1%nat, [(0%nat, "The first SPEED/LEVEL cannot be followed by the element 'VFR'")]);
  (* :79 *) ("N0450F350 IFPSTOP", [(0%nat, "ADEP IFR N0450 F350"); (1%nat, "ADES IFR")], Some 1%nat, [(0%nat, "The first SPEED/LEVEL cannot be followed by the element 'IFPSTOP'")]);
  (* :87 *) ("N0450F350 N0100VFR", [(0%nat, "ADEP IFR N0450 F350"); (1%nat, "ADES IFR")], Some 1%nat, [(0%nat, "The first SPEED/LEVEL cannot be followed by the element 'N0100VFR'")]);
  (* :95 *) ("N0450F350 N0100F100", [(0%nat, "ADEP IFR N0450 F350"); (1%nat, "ADES IFR")], Some 1%nat, [(0%nat, "The first SPEED/LEVEL cannot be followed by the element 'N0100F100'")]);
  (* :103 *) ("N0450F350 STAY1", [(0%nat, "ADEP IFR N0450 F350"); (1%nat, "ADES IFR")], Some 1%nat, [(0%nat, "The first SPEED/LEVEL cannot be followed by the element 'STAY1'")]);
  (* :111 *) ("N0450F350 C", [(0%nat, "ADEP IFR N0450 F350"); (1%nat, "ADES IFR")], Some 1%nat, [(0%nat, "The first SPEED/LEVEL cannot be followed by the element 'C'")]);
  (* :119 *) ("N0450F350 DCT", [(0%nat, "ADEP IFR N0450 F350"); (1%nat, "DCT IFR N0450 F350"); (2%nat, "ADES IFR")], Some 0%nat, []);
  (* :126 *) ("N0450F350 T", [(0%nat, "ADEP IFR N0450 F350"); (1%nat, "ADES IFR")], Some 0%nat, []);
  (* :132 *) ("N0450F350 PNT", [(0%nat, "ADEP IFR N0450 F350"); (1%nat, "PNT IFR N0450 F350"); (2%nat, "ADES IFR")], Some 0%nat, []);
  (* :139 *) ("N0450F350 B9", [(0%nat, "ADEP IFR N0450 F350"); (1%nat, "ADES IFR")], Some 1%nat, [(0%nat, "Expecting SID or DPF after first SPEED/LEVEL element instead of 'B9'")]);
  (* :147 *) ("N0450F350 LNZ1A", [(0%nat, "ADEP IFR N0450 F350"); (1%nat, "LNZ1A IFR N0450 F350"); (2%nat, "ADES IFR")], Some 0%nat, []);
  (* :154 *) ("N0450F350 N0100F100F200", [(0%nat, "ADEP IFR N0450 F350"); (1%nat, "ADES IFR")], Some 1%nat, [(0%nat, "Expecting 'C/POINT/' before 'N0100F100F200'")]);
  (* :161 *) ("N0450F350 N0100F100PLUS", [(0%nat, "ADEP IFR N0450 F350"); (1%nat, "ADES IFR")], Some 1%nat, [(0%nat, "Expecting 'C/POINT/' before 'N0100F100PLUS'")]);
  (* :168 *) ("N0450F350 ABCDEFGHIJKLMNOPQRSTUVWXYZ", [(0%nat, "ADEP IFR N0450 F350"); (1%nat, "ADES IFR")], Some 1%nat, [(0%nat, "Element 'ABCDEFGHIJKLMNOPQRSTUVWXYZ' is too long for a Field 15 Element")]);
  (* :176 *) ("N0450F350 1234", [(0%nat, "ADEP IFR N0450 F350"); (1%nat, "ADES IFR")], Some 1%nat, [(0%nat, "Expecting the keyword 'STAY' before '1234'")]);
  (* :183 *) ("N0450F350 SID", [(0%nat, "ADEP IFR N0450 F350"); (1%nat, "SID IFR N0450 F350"); (2%nat, "ADES IFR")], Some 0%nat, []);
  (* :190 *) ("N0450F350 STAR", [(0%nat, "ADEP IFR N0450 F350"); (1%nat, "STAR IFR N0450 F350"); (2%nat, "ADES IFR")], Some 0%nat, []);
  (* :198 *) ("N0450F250 PNT 6B6B", [(0%nat, "ADEP IFR N0450 F250"); (1%nat, "PNT IFR N0450 F250"); (2%nat, "ADES IFR")], Some 1%nat, [(0%nat, "The element '6B6B' is an unrecognised Field 15 element")]);
  (* :206 *) ("M082F350 PNT /", [(0%nat, "ADEP IFR M082 F350"); (1%nat, "PNT IFR M082 F350"); (2%nat, "ADES IFR")], Some 1%nat, [(0%nat, "Field 15 is incomplete, expecting additional data after the final '/'")]);
  (* :215 *) ("N0450F350 PNT OAT OAT/G A T BREAK TEXT", [(0%nat, "ADEP IFR N0450 F350"); (1%nat, "PNT IFR N0450 F350"); (2%nat, "OAT OAT N0450 F350 OAT / G A T BREAK TEXT"); (3%nat, "ADES OAT")], Some 0%nat, []);
  (* :223 *) ("N0150F350 PNT N0100VFR", [(0%nat, "ADEP IFR N0150 F350"); (1%nat, "PNT IFR N0150 F350"); (2%nat, "ADES IFR")], Some 1%nat, [(0%nat, "Expecting '/' before 'N0100VFR'")]);
  (* :231 *) ("N0440F350 PNT GAT", [(0%nat, "ADEP IFR N0440 F350"); (1%nat, "PNT IFR N0440 F350"); (2%nat, "ADES IFR")], Some 1%nat, [(0%nat, "No OAT section preceding this 'GAT' rule change indicator")]);
  (* :239 *) ("N0450F350 PNT DCT", [(0%nat, "ADEP IFR N0450 F350"); (1%nat, "PNT IFR N0450 F350"); (2%nat, "DCT IFR N0450 F350"); (3%nat, "ADES IFR")], Some 0%nat, []);
  (* :247 *) ("N0410F350 PNT STAY1", [(0%nat, "ADEP IFR N0410 F350"); (1%nat, "PNT IFR N0410 F350"); (2%nat, "ADES IFR")], Some 1%nat, [(0%nat, "Expecting STAY time as '/HHMM' after 'STAY1'")]);
  (* :255 *) ("N0390F350 PNT T", [(0%nat, "ADEP IFR N0390 F350"); (1%nat, "PNT IFR N0390 F350"); (2%nat, "ADES IFR")], Some 0%nat, []);
  (* :262 *) ("K0450F350 PNT C", [(0%nat, "ADEP IFR K0450 F350"); (1%nat, "PNT IFR K0450 F350"); (2%nat, "C IFR K0450 F350"); (3%nat, "ADES IFR")], Some 0%nat, []);
  (* :270 *) ("N0450F350 PNT SBG", [(0%nat, "ADEP IFR N0450 F350"); (1%nat, "PNT IFR N0450 F350"); (2%nat, "SBG IFR N0450 F350"); (3%nat, "ADES IFR")], Some 0%nat, []);
  (* :278 *) ("N0450F350 PNT A8", [(0%nat, "ADEP IFR N0450 F350"); (1%nat, "PNT IFR N0450 F350"); (2%nat, "A8 IFR N0450 F350"); (3%nat, "ADES IFR")], Some 0%nat, []);
  (* :286 *) ("N0450F350 PNT LNZ1A", [(0%nat, "ADEP IFR N0450 F350"); (1%nat, "PNT IFR N0450 F350"); (2%nat, "LNZ1A IFR N0450 F350"); (3%nat, "ADES IFR")], Some 0%nat, []);
  (* :294 *) ("N0450A350 PNT N0300F100", [(0%nat, "ADEP IFR N0450 A350"); (1%nat, "PNT IFR N0450 A350"); (2%nat, "ADES IFR")], Some 1%nat, [(0%nat, "Expecting '/' before 'N0300F100'")]);
  (* :302 *) ("N0450S0350 PNT N0200F100F200", [(0%nat, "ADEP IFR N0450 S0350"); (1%nat, "PNT IFR N0450 S0350"); (2%nat, "ADES IFR")], Some 1%nat, [(0%nat, "Expecting 'C/POINT/' before 'N0200F100F200'")]);
  (* :310 *) ("N0450S0150 PNT N0150F150PLUS", [(0%nat, "ADEP IFR N0450 S0150"); (1%nat, "PNT IFR N0450 S0150"); (2%nat, "ADES IFR")], Some 1%nat, [(0%nat, "Expecting 'C/POINT/' before 'N0150F150PLUS'")]);
  (* :318 *) ("K0990A300 PNT ABCDEFGHIJKLMNOPQRSTUVWXYZ", [(0%nat, "ADEP IFR K0990 A300"); (1%nat, "PNT IFR K0990 A300"); (2%nat, "ADES IFR")], Some 1%nat, [(0%nat, "Element 'ABCDEFGHIJKLMNOPQRSTUVWXYZ' is too long for a Field 15 Element")]);
  (* :327 *) ("N0450M0800 PNT 2256", [(0%nat, "ADEP IFR N0450 M0800"); (1%nat, "PNT IFR N0450 M0800"); (2%nat, "ADES IFR")], Some 1%nat, [(0%nat, "Expecting the keyword 'STAY' before '2256'")]);
  (* :335 *) ("N0450A700 PNT LNZ1A", [(0%nat, "ADEP IFR N0450 A700"); (1%nat, "PNT IFR N0450 A700"); (2%nat, "LNZ1A IFR N0450 A700"); (3%nat, "ADES IFR")], Some 0%nat, []);
  (* :343 *) ("N0450F350 PNT NOLAN2C", [(0%nat, "ADEP IFR N0450 F350"); (1%nat, "PNT IFR N0450 F350"); (2%nat, "NOLAN2C IFR N0450 F350"); (3%nat, "ADES IFR")], Some 0%nat, []);
  (* :352 *) ("N0450M0825 N0100VFR B8B8", [(0%nat, "ADEP IFR N0450 M0825"); (1%nat, "ADES IFR")], Some 2%nat, [(0%nat, "The first SPEED/LEVEL cannot be followed by the element 'N0100VFR'"); (1%nat, "The element 'B8B8' is an unrecognised Field 15 element")]);
  (* :362 *) ("N0450M0700 B9 /", [(0%nat, "ADEP IFR N0450 M0700"); (1%nat, "ADES IFR")], Some 2%nat, [(0%nat, "Expecting SID or DPF after first SPEED/LEVEL element instead of 'B9'"); (1%nat, "Field 15 cannot end with the '/' element")]);
  (* :372 *) ("N0450M0800 B9 /N0100VFR", [(0%nat, "ADEP IFR N0100 F050"); (1%nat, "VFR VFR N0100 F050"); (2%nat, "ADES VFR")], Some 1%nat, [(0%nat, "Expecting SID or DPF after first SPEED/LEVEL element instead of 'B9'")]);
  (* :381 *) ("N0450M0800 B9 / ABCDE", [(0%nat, "ADEP IFR N0450 M0800"); (1%nat, "ABCDE IFR N0450 M0800"); (2%nat, "ADES IFR")], Some 1%nat, [(0%nat, "Expecting SID or DPF after first SPEED/LEVEL element instead of 'B9'")]);
  (* :390 *) ("N0450M0800 B9 /N0100F200", [(0%nat, "ADEP IFR N0100 F200"); (1%nat, "ADES IFR")], Some 1%nat, [(0%nat, "Expecting SID or DPF after first SPEED/LEVEL element instead of 'B9'")]);
  (* :398 *) ("N0450M0800 B9 /N0100F210F300", [(0%nat, "ADEP IFR N0100 F210"); (1%nat, "ADES IFR")], Some 1%nat, [(0%nat, "Expecting SID or DPF after first SPEED/LEVEL element instead of 'B9'")]);
  (* :406 *) ("N0450M0800 B9 /N0230F130PLUS", [(0%nat, "ADEP IFR N0230 F130"); (1%nat, "ADES IFR")], Some 1%nat, [(0%nat, "Expecting SID or DPF after first SPEED/LEVEL element instead of 'B9'")]);
  (* :414 *) ("N0450M0800 B9 / B9", [(0%nat, "ADEP IFR N0450 M0800"); (1%nat, "ADES IFR")], Some 2%nat, [(0%nat, "Expecting SID or DPF after first SPEED/LEVEL element instead of 'B9'"); (1%nat, "'/' not expected preceding 'B9'")]);
  (* :424 *) ("N0450M0800 N0100VFR IFPSTOP", [(0%nat, "ADEP IFR N0450 M0800"); (1%nat, "IFPSTOP IFPS N0450 M0800"); (2%nat, "ADES IFPS")], Some 1%nat, [(0%nat, "The first SPEED/LEVEL cannot be followed by the element 'N0100VFR'")]);
  (* :433 *) ("N0450M0800 STAY6 N0110VFR", [(0%nat, "ADEP IFR N0110 F050"); (1%nat, "VFR VFR N0110 F050"); (2%nat, "ADES VFR")], Some 1%nat, [(0%nat, "The first SPEED/LEVEL cannot be followed by the element 'STAY6'")]);
  (* :442 *) ("N0450M0800 N0100VFR IFR", [(0%nat, "ADEP IFR N0450 M0800"); (1%nat, "ADES IFR")], Some 1%nat, [(0%nat, "The first SPEED/LEVEL cannot be followed by the element 'N0100VFR'")]);
  (* :450 *) ("N0450M0800 N0100VFR DCT", [(0%nat, "ADEP IFR N0450 M0800"); (1%nat, "DCT IFR N0450 M0800"); (2%nat, "ADES IFR")], Some 1%nat, [(0%nat, "The first SPEED/LEVEL cannot be followed by the element 'N0100VFR'")]);
  (* :459 *) ("N0450M0650 N0100VFR STAY2", [(0%nat, "ADEP IFR N0450 M0650"); (1%nat, "ADES IFR")], Some 2%nat, [(0%nat, "The first SPEED/LEVEL cannot be followed by the element 'N0100VFR'"); (1%nat, "Expecting STAY time as '/HHMM' after 'STAY2'")]);
  (* :469 *) ("N0450M0500 N0100VFR T", [(0%nat, "ADEP IFR N0450 M0500"); (1%nat, "ADES IFR")], Some 1%nat, [(0%nat, "The first SPEED/LEVEL cannot be followed by the element 'N0100VFR'")]);
  (* :477 *) ("N0450M0800 N0100VFR C", [(0%nat, "ADEP IFR N0450 M0800"); (1%nat, "C IFR N0450 M0800"); (2%nat, "ADES IFR")], Some 1%nat, [(0%nat, "The first SPEED/LEVEL cannot be followed by the element 'N0100VFR'")]);
  (* :486 *) ("N0450M0800 N0100VFR GHGIK", [(0%nat, "ADEP IFR N0450 M0800"); (1%nat, "GHGIK IFR N0450 M0800"); (2%nat, "ADES IFR")], Some 1%nat, [(0%nat, "The first SPEED/LEVEL cannot be followed by the element 'N0100VFR'")]);
  (* :495 *) ("N0450M0800 N0100VFR B8", [(0%nat, "ADEP IFR N0450 M0800"); (1%nat, "B8 IFR N0450 M0800"); (2%nat, "ADES IFR")], Some 1%nat, [(0%nat, "The first SPEED/LEVEL cannot be followed by the element 'N0100VFR'")]);
  (* :504 *) ("N0450M0800 N0100VFR SBG5R", [(0%nat, "ADEP IFR N0450 M0800"); (1%nat, "SBG5R IFR N0450 M0800"); (2%nat, "ADES IFR")], Some 1%nat, [(0%nat, "The first SPEED/LEVEL cannot be followed by the element 'N0100VFR'")]);
  (* :513 *) ("N0450M0800 N0100VFR N0200F120", [(0%nat, "ADEP IFR N0200 F120"); (1%nat, "ADES IFR")], Some 1%nat, [(0%nat, "The first SPEED/LEVEL cannot be followed by the element 'N0100VFR'")]);
  (* :521 *) ("N0450M0800 N0100VFR K0234S3423A123", [(0%nat, "ADEP IFR K0234 S3423"); (1%nat, "ADES IFR")], Some 1%nat, [(0%nat, "The first SPEED/LEVEL cannot be followed by the element 'N0100VFR'")]);
  (* :529 *) ("N0450M0800 N0100VFR M070F100M1000", [(0%nat, "ADEP IFR M070 F100"); (1%nat, "ADES IFR")], Some 1%nat, [(0%nat, "The first SPEED/LEVEL cannot be followed by the element 'N0100VFR'")]);
  (* :537 *) ("N0450M0800 N0100VFR ABCDEFGHIJKLMNOPQRSTUVWXYZ", [(0%nat, "ADEP IFR N0450 M0800"); (1%nat, "ADES IFR")], Some 2%nat, [(0%nat, "The first SPEED/LEVEL cannot be followed by the element 'N0100VFR'"); (1%nat, "Element 'ABCDEFGHIJKLMNOPQRSTUVWXYZ' is too long for a Field 15 Element")]);
  (* :547 *) ("N0450M0400 N0100VFR 2359", [(0%nat, "ADEP IFR N0450 M0400"); (1%nat, "ADES IFR")], Some 2%nat, [(0%nat, "The first SPEED/LEVEL cannot be followed by the element 'N0100VFR'"); (1%nat, "Expecting the keyword 'STAY' before '2359'")]);
  (* :557 *) ("N0450M0800 N0100VFR JKL0R", [(0%nat, "ADEP IFR N0450 M0800"); (1%nat, "JKL0R IFR N0450 M0800"); (2%nat, "ADES IFR")], Some 1%nat, [(0%nat, "The first SPEED/LEVEL cannot be followed by the element 'N0100VFR'")]);
  (* :566 *) ("N0450M0800 N0100VFR NOLAN8Y", [(0%nat, "ADEP IFR N0450 M0800"); (1%nat, "NOLAN8Y IFR N0450 M0800"); (2%nat, "ADES IFR")], Some 1%nat, [(0%nat, "The first SPEED/LEVEL cannot be followed by the element 'N0100VFR'")]);
  (* :576 *) ("N0450M0825 BGH VFR THIS IS VFR TEXT IFR", [(0%nat, "ADEP IFR N0450 M0825"); (1%nat, "BGH IFR N0450 M0825"); (2%nat, "VFR VFR N0450 M0825 THIS IS VFR TEXT IFR"); (3%nat, "ADES VFR")], Some 0%nat, []);
  (* :584 *) ("N0450M0825 BGH OAT THIS IS OAT TEXT GAT", [(0%nat, "ADEP IFR N0450 M0825"); (1%nat, "BGH IFR N0450 M0825"); (2%nat, "OAT OAT N0450 M0825 THIS IS OAT TEXT GAT"); (3%nat, "ADES OAT")], Some 0%nat, []);
  (* :592 *) ("N0450M0825 BGH IFPSTOP THIS IS OAT TEXT IFPSTART", [(0%nat, "ADEP IFR N0450 M0825"); (1%nat, "BGH IFR N0450 M0825"); (2%nat, "IFPSTOP IFPS N0450 M0825 THIS IS OAT TEXT IFPSTART"); (3%nat, "ADES IFPS")], Some 0%nat, []);
  (* :601 *) ("N0450M0825 BGH VFR THIS IS VFR TEXT IFR B8B8", [(0%nat, "ADEP IFR N0450 M0825"); (1%nat, "BGH IFR N0450 M0825"); (2%nat, "VFR VFR N0450 M0825 THIS IS VFR TEXT IFR B8B8"); (3%nat, "ADES VFR")], Some 0%nat, []);
  (* :610 *) ("N0450M0825 BGH OAT THIS IS OAT TEXT GAT B8B8", [(0%nat, "ADEP IFR N0450 M0825"); (1%nat, "BGH IFR N0450 M0825"); (2%nat, "OAT OAT N0450 M0825 THIS IS OAT TEXT GAT B8B8"); (3%nat, "ADES OAT")], Some 0%nat, []);
  (* :619 *) ("N0450M0825 BGH IFPSTOP THIS IS OAT TEXT IFPSTART B8B8", [(0%nat, "ADEP IFR N0450 M0825"); (1%nat, "BGH IFR N0450 M0825"); (2%nat, "IFPSTOP IFPS N0450 M0825 THIS IS OAT TEXT IFPSTART B8B8"); (3%nat, "ADES IFPS")], Some 0%nat, []);
  (* :628 *) ("N0450M0825 BGH VFR THIS IS VFR TEXT IFR / ", [(0%nat, "ADEP IFR N0450 M0825"); (1%nat, "BGH IFR N0450 M0825"); (2%nat, "VFR VFR N0450 M0825 THIS IS VFR TEXT IFR /"); (3%nat, "ADES VFR")], Some 0%nat, []);
  (* :636 *) ("N0450M0825 BGH OAT THIS IS OAT TEXT GAT /", [(0%nat, "ADEP IFR N0450 M0825"); (1%nat, "BGH IFR N0450 M0825"); (2%nat, "OAT OAT N0450 M0825 THIS IS OAT TEXT GAT /"); (3%nat, "ADES OAT")], Some 0%nat, []);
  (* :644 *) ("N0450M0825 BGH IFPSTOP THIS IS OAT TEXT IFPSTART /", [(0%nat, "ADEP IFR N0450 M0825"); (1%nat, "BGH IFR N0450 M0825"); (2%nat, "IFPSTOP IFPS N0450 M0825 THIS IS OAT TEXT IFPSTART /"); (3%nat, "ADES IFPS")], Some 0%nat, []);
  (* :653 *) ("N0450M0825 BGH VFR THIS IS VFR TEXT IFR VFR", [(0%nat, "ADEP IFR N0450 M0825"); (1%nat, "BGH IFR N0450 M0825"); (2%nat, "VFR VFR N0450 M0825 THIS IS VFR TEXT IFR VFR"); (3%nat, "ADES VFR")], Some 0%nat, []);
  (* :661 *) ("N0450M0825 BGH OAT THIS IS OAT TEXT GAT OAT", [(0%nat, "ADEP IFR N0450 M0825"); (1%nat, "BGH IFR N0450 M0825"); (2%nat, "OAT OAT N0450 M0825 THIS IS OAT TEXT GAT OAT"); (3%nat, "ADES OAT")], Some 0%nat, []);
  (* :669 *) ("N0450M0825 BGH IFPSTOP THIS IS OAT TEXT IFPSTART IFPSTOP", [(0%nat, "ADEP IFR N0450 M0825"); (1%nat, "BGH IFR N0450 M0825"); (2%nat, "IFPSTOP IFPS N0450 M0825 THIS IS OAT TEXT IFPSTART IFPSTOP"); (3%nat, "ADES IFPS")], Some 0%nat, []);
  (* :678 *) ("N0450M0825 BGH VFR THIS IS VFR TEXT IFR N0450VFR", [(0%nat, "ADEP IFR N0450 M0825"); (1%nat, "BGH IFR N0450 M0825"); (2%nat, "VFR VFR N0450 M0825 THIS IS VFR TEXT IFR N0450VFR"); (3%nat, "ADES VFR")], Some 0%nat, []);
  (* :687 *) ("N0450M0825 BGH OAT THIS IS OAT TEXT GAT N0450VFR", [(0%nat, "ADEP IFR N0450 M0825"); (1%nat, "BGH IFR N0450 M0825"); (2%nat, "OAT OAT N0450 M0825 THIS IS OAT TEXT GAT N0450VFR"); (3%nat, "ADES OAT")], Some 0%nat, []);
  (* :696 *) ("N0450M0825 BGH IFPSTOP THIS IS OAT TEXT IFPSTART N0450VFR", [(0%nat, "ADEP IFR N0450 M0825"); (1%nat, "BGH IFR N0450 M0825"); (2%nat, "IFPSTOP IFPS N0450 M0825 THIS IS OAT TEXT IFPSTART N0450VFR"); (3%nat, "ADES IFPS")], Some 0%nat, []);
  (* :705 *) ("N0450M0825 BGH VFR THIS IS VFR TEXT IFR IFR", [(0%nat, "ADEP IFR N0450 M0825"); (1%nat, "BGH IFR N0450 M0825"); (2%nat, "VFR VFR N0450 M0825 THIS IS VFR TEXT IFR IFR"); (3%nat, "ADES VFR")], Some 0%nat, []);
  (* :713 *) ("N0450M0825 BGH OAT THIS IS OAT TEXT GAT GAT", [(0%nat, "ADEP IFR N0450 M0825"); (1%nat, "BGH IFR N0450 M0825"); (2%nat, "OAT OAT N0450 M0825 THIS IS OAT TEXT GAT GAT"); (3%nat, "ADES OAT")], None, []);
  (* :720 *) ("N0450M0825 BGH IFPSTOP THIS IS OAT TEXT IFPSTART IFPSTART", [(0%nat, "ADEP IFR N0450 M0825"); (1%nat, "BGH IFR N0450 M0825"); (2%nat, "IFPSTOP IFPS N0450 M0825 THIS IS OAT TEXT IFPSTART IFPSTART"); (3%nat, "ADES IFPS")], Some 0%nat, []);
  (* :729 *) ("N0450M0825 BGH VFR THIS IS VFR TEXT IFR DCT", [(0%nat, "ADEP IFR N0450 M0825"); (1%nat, "BGH IFR N0450 M0825"); (2%nat, "VFR VFR N0450 M0825 THIS IS VFR TEXT IFR DCT"); (3%nat, "ADES VFR")], Some 0%nat, []);
  (* :737 *) ("N0450M0825 BGH OAT THIS IS OAT TEXT GAT DCT", [(0%nat, "ADEP IFR N0450 M0825"); (1%nat, "BGH IFR N0450 M0825"); (2%nat, "OAT OAT N0450 M0825 THIS IS OAT TEXT GAT DCT"); (3%nat, "ADES OAT")], Some 0%nat, []);
  (* :745 *) ("N0450M0825 BGH IFPSTOP THIS IS OAT TEXT IFPSTART DCT", [(0%nat, "ADEP IFR N0450 M0825"); (1%nat, "BGH IFR N0450 M0825"); (2%nat, "IFPSTOP IFPS N0450 M0825 THIS IS OAT TEXT IFPSTART DCT"); (3%nat, "ADES IFPS")], Some 0%nat, []);
  (* :754 *) ("N0450M0825 BGH VFR THIS IS VFR TEXT IFR STAY3", [(0%nat, "ADEP IFR N0450 M0825"); (1%nat, "BGH IFR N0450 M0825"); (2%nat, "VFR VFR N0450 M0825 THIS IS VFR TEXT IFR STAY3"); (3%nat, "ADES VFR")], Some 0%nat, []);
  (* :762 *) ("N0450M0825 BGH OAT THIS IS OAT TEXT GAT STAY3", [(0%nat, "ADEP IFR N0450 M0825"); (1%nat, "BGH IFR N0450 M0825"); (2%nat, "OAT OAT N0450 M0825 THIS IS OAT TEXT GAT STAY3"); (3%nat, "ADES OAT")], Some 0%nat, []);
  (* :770 *) ("N0450M0825 BGH IFPSTOP THIS IS OAT TEXT IFPSTART STAY3", [(0%nat, "ADEP IFR N0450 M0825"); (1%nat, "BGH IFR N0450 M0825"); (2%nat, "IFPSTOP IFPS N0450 M0825 THIS IS OAT TEXT IFPSTART STAY3"); (3%nat, "ADES IFPS")], Some 0%nat, []);
  (* :779 *) ("N0450M0825 BGH VFR THIS IS VFR TEXT IFR T", [(0%nat, "ADEP IFR N0450 M0825"); (1%nat, "BGH IFR N0450 M0825"); (2%nat, "VFR VFR N0450 M0825 THIS IS VFR TEXT IFR T"); (3%nat, "ADES VFR")], Some 0%nat, []);
  (* :787 *) ("N0450M0825 BGH OAT THIS IS OAT TEXT GAT T", [(0%nat, "ADEP IFR N0450 M0825"); (1%nat, "BGH IFR N0450 M0825"); (2%nat, "OAT OAT N0450 M0825 THIS IS OAT TEXT GAT T"); (3%nat, "ADES OAT")], Some 0%nat, []);
  (* :795 *) ("N0450M0825 BGH IFPSTOP THIS IS OAT TEXT IFPSTART T", [(0%nat, "ADEP IFR N0450 M0825"); (1%nat, "BGH IFR N0450 M0825"); (2%nat, "IFPSTOP IFPS N0450 M0825 THIS IS OAT TEXT IFPSTART T"); (3%nat, "ADES IFPS")], Some 0%nat, []);
  (* :804 *) ("N0450M0825 BGH VFR THIS IS VFR TEXT IFR C", [(0%nat, "ADEP IFR N0450 M0825"); (1%nat, "BGH IFR N0450 M0825"); (2%nat, "VFR VFR N0450 M0825 THIS IS VFR TEXT IFR C"); (3%nat, "ADES VFR")], Some 0%nat, []);
  (* :812 *) ("N0450M0825 BGH OAT THIS IS OAT TEXT GAT C", [(0%nat, "ADEP IFR N0450 M0825"); (1%nat, "BGH IFR N0450 M0825"); (2%nat, "OAT OAT N0450 M0825 THIS IS OAT TEXT GAT C"); (3%nat, "ADES OAT")], Some 0%nat, []);
  (* :820 *) ("N0450M0825 BGH IFPSTOP THIS IS OAT TEXT IFPSTART C", [(0%nat, "ADEP IFR N0450 M0825"); (1%nat, "BGH IFR N0450 M0825"); (2%nat, "IFPSTOP IFPS N0450 M0825 THIS IS OAT TEXT IFPSTART C"); (3%nat, "ADES IFPS")], Some 0%nat, []);
  (* :829 *) ("N0450M0825 BGH VFR THIS IS VFR TEXT IFR ABC", [(0%nat, "ADEP IFR N0450 M0825"); (1%nat, "BGH IFR N0450 M0825"); (2%nat, "VFR VFR N0450 M0825 THIS IS VFR TEXT IFR"); (3%nat, "ABC IFR N0450 M0825"); (4%nat, "ADES IFR")], Some 1%nat, [(0%nat, "Expecting '/SPEED/LEVEL' following 'ABC' to complete rule change to IFR")]);
  (* :840 *) ("N0450M0825 BGH OAT THIS IS OAT TEXT GAT ABC", [(0%nat, "ADEP IFR N0450 M0825"); (1%nat, "BGH IFR N0450 M0825"); (2%nat, "OAT OAT N0450 M0825 THIS IS OAT TEXT GAT"); (3%nat, "ABC IFR N0450 M0825"); (4%nat, "ADES IFR")], Some 0%nat, []);
  (* :849 *) ("N0450M0825 BGH IFPSTOP THIS IS OAT TEXT IFPSTART ABC", [(0%nat, "ADEP IFR N0450 M0825"); (1%nat, "BGH IFR N0450 M0825"); (2%nat, "IFPSTOP IFPS N0450 M0825 THIS IS OAT TEXT IFPSTART"); (3%nat, "ABC IFR N0450 M0825"); (4%nat, "ADES IFR")], Some 0%nat, []);
  (* :859 *) ("N0450M0825 BGH VFR THIS IS VFR TEXT IFR A3", [(0%nat, "ADEP IFR N0450 M0825"); (1%nat, "BGH IFR N0450 M0825"); (2%nat, "VFR VFR N0450 M0825 THIS IS VFR TEXT IFR A3"); (3%nat, "ADES VFR")], Some 0%nat, []);
  (* :867 *) ("N0450M0825 BGH OAT THIS IS OAT TEXT GAT A3", [(0%nat, "ADEP IFR N0450 M0825"); (1%nat, "BGH IFR N0450 M0825"); (2%nat, "OAT OAT N0450 M0825 THIS IS OAT TEXT GAT A3"); (3%nat, "ADES OAT")], Some 0%nat, []);
  (* :875 *) ("N0450M0825 BGH IFPSTOP THIS IS OAT TEXT IFPSTART A3", [(0%nat, "ADEP IFR N0450 M0825"); (1%nat, "BGH IFR N0450 M0825"); (2%nat, "IFPSTOP IFPS N0450 M0825 THIS IS OAT TEXT IFPSTART A3"); (3%nat, "ADES IFPS")], Some 0%nat, []);
  (* :884 *) ("N0450M0825 BGH VFR THIS IS VFR TEXT IFR LNZ1G", [(0%nat, "ADEP IFR N0450 M0825"); (1%nat, "BGH IFR N0450 M0825"); (2%nat, "VFR VFR N0450 M0825 THIS IS VFR TEXT IFR LNZ1G"); (3%nat, "ADES VFR")], Some 0%nat, []);
  (* :892 *) ("N0450M0825 BGH OAT THIS IS OAT TEXT GAT LNZ1G", [(0%nat, "ADEP IFR N0450 M0825"); (1%nat, "BGH IFR N0450 M0825"); (2%nat, "OAT OAT N0450 M0825 THIS IS OAT TEXT GAT LNZ1G"); (3%nat, "ADES OAT")], Some 0%nat, []);
  (* :900 *) ("N0450M0825 BGH IFPSTOP THIS IS OAT TEXT IFPSTART LNZ1G", [(0%nat, "ADEP IFR N0450 M0825"); (1%nat, "BGH IFR N0450 M0825"); (2%nat, "IFPSTOP IFPS N0450 M0825 THIS IS OAT TEXT IFPSTART LNZ1G"); (3%nat, "ADES IFPS")], Some 0%nat, []);
  (* :909 *) ("N0450M0825 BGH VFR THIS IS VFR TEXT IFR N0100F200", [(0%nat, "ADEP IFR N0450 M0825"); (1%nat, "BGH IFR N0450 M0825"); (2%nat, "VFR VFR N0450 M0825 THIS IS VFR TEXT IFR N0100F200"); (3%nat, "ADES VFR")], Some 0%nat, []);
  (* :918 *) ("N0450M0825 BGH OAT THIS IS OAT TEXT GAT N0100F200", [(0%nat, "ADEP IFR N0450 M0825"); (1%nat, "BGH IFR N0450 M0825"); (2%nat, "OAT OAT N0450 M0825 THIS IS OAT TEXT GAT N0100F200"); (3%nat, "ADES OAT")], Some 0%nat, []);
  (* :927 *) ("N0450M0825 BGH IFPSTOP THIS IS OAT TEXT IFPSTART N0100F200", [(0%nat, "ADEP IFR N0450 M0825"); (1%nat, "BGH IFR N0450 M0825"); (2%nat, "IFPSTOP IFPS N0450 M0825 THIS IS OAT TEXT IFPSTART N0100F200"); (3%nat, "ADES IFPS")], Some 0%nat, []);
  (* :936 *) ("N0450M0825 BGH VFR THIS IS VFR TEXT IFR N0100F200F320", [(0%nat, "ADEP IFR N0450 M0825"); (1%nat, "BGH IFR N0450 M0825"); (2%nat, "VFR VFR N0450 M0825 THIS IS VFR TEXT IFR N0100F200F320"); (3%nat, "ADES VFR")], Some 0%nat, []);
  (* :945 *) ("N0450M0825 BGH OAT THIS IS OAT TEXT GAT N0100F200F320", [(0%nat, "ADEP IFR N0450 M0825"); (1%nat, "BGH IFR N0450 M0825"); (2%nat, "OAT OAT N0450 M0825 THIS IS OAT TEXT GAT N0100F200F320"); (3%nat, "ADES OAT")], Some 0%nat, []);
  (* :954 *) ("N0450M0825 BGH IFPSTOP THIS IS OAT TEXT IFPSTART N0100F200F320", [(0%nat, "ADEP IFR N0450 M0825"); (1%nat, "BGH IFR N0450 M0825"); (2%nat, "IFPSTOP IFPS N0450 M0825 THIS IS OAT TEXT IFPSTART N0100F200F320"); (3%nat, "ADES IFPS")], Some 0%nat, []);
  (* :963 *) ("N0450M0825 BGH VFR THIS IS VFR TEXT IFR N0100F200PLUS", [(0%nat, "ADEP IFR N0450 M0825"); (1%nat, "BGH IFR N0450 M0825"); (2%nat, "VFR VFR N0450 M0825 THIS IS VFR TEXT IFR N0100F200PLUS"); (3%nat, "ADES VFR")], Some 0%nat, []);
  (* :972 *) ("N0450M0825 BGH OAT THIS IS OAT TEXT GAT N0100F200PLUS", [(0%nat, "ADEP IFR N0450 M0825"); (1%nat, "BGH IFR N0450 M0825"); (2%nat, "OAT OAT N0450 M0825 THIS IS OAT TEXT GAT N0100F200PLUS"); (3%nat, "ADES OAT")], Some 0%nat, []);
  (* :981 *) ("N0450M0825 BGH IFPSTOP THIS IS OAT TEXT IFPSTART N0100F200PLUS", [(0%nat, "ADEP IFR N0450 M0825"); (1%nat, "BGH IFR N0450 M0825"); (2%nat, "IFPSTOP IFPS N0450 M0825 THIS IS OAT TEXT IFPSTART N0100F200PLUS"); (3%nat, "ADES IFPS")], Some 0%nat, []);
  (* :990 *) ("N0450M0825 BGH VFR THIS IS VFR TEXT IFR ABCDEFGHIJKLMNOPQRSTUVWXYZ", [(0%nat, "ADEP IFR N0450 M0825"); (1%nat, "BGH IFR N0450 M0825"); (2%nat, "VFR VFR N0450 M0825 THIS IS VFR TEXT IFR ABCDEFGHIJKLMNOPQRSTUVWXYZ"); (3%nat, "ADES VFR")], Some 1%nat, [(0%nat, "Element 'ABCDEFGHIJKLMNOPQRSTUVWXYZ' is too long for a Field 15 Element")]);
  (* :1001 *) ("N0450M0825 BGH OAT THIS IS OAT TEXT GAT ABCDEFGHIJKLMNOPQRSTUVWXYZ", [(0%nat, "ADEP IFR N0450 M0825"); (1%nat, "BGH IFR N0450 M0825"); (2%nat, "OAT OAT N0450 M0825 THIS IS OAT TEXT GAT ABCDEFGHIJKLMNOPQRSTUVWXYZ"); (3%nat, "ADES OAT")], Some 1%nat, [(0%nat, "Element 'ABCDEFGHIJKLMNOPQRSTUVWXYZ' is too long for a Field 15 Element")]);
  (* :1012 *) ("N0450M0825 BGH IFPSTOP THIS IS OAT TEXT IFPSTART ABCDEFGHIJKLMNOPQRSTUVWXYZ", [(0%nat, "ADEP IFR N0450 M0825"); (1%nat, "BGH IFR N0450 M0825"); (2%nat, "IFPSTOP IFPS N0450 M0825 THIS IS OAT TEXT IFPSTART ABCDEFGHIJKLMNOPQRSTUVWXYZ"); (3%nat, "ADES IFPS")], Some 1%nat, [(0%nat, "Element 'ABCDEFGHIJKLMNOPQRSTUVWXYZ' is too long for a Field 15 Element")]);
  (* :1023 *) ("N0450M0825 BGH VFR THIS IS VFR TEXT IFR STAY5", [(0%nat, "ADEP IFR N0450 M0825"); (1%nat, "BGH IFR N0450 M0825"); (2%nat, "VFR VFR N0450 M0825 THIS IS VFR TEXT IFR STAY5"); (3%nat, "ADES VFR")], Some 0%nat, []);
  (* :1031 *) ("N0450M0825 BGH OAT THIS IS OAT TEXT GAT STAY5", [(0%nat, "ADEP IFR N0450 M0825"); (1%nat, "BGH IFR N0450 M0825"); (2%nat, "OAT OAT N0450 M0825 THIS IS OAT TEXT GAT STAY5"); (3%nat, "ADES OAT")], Some 0%nat, []);
  (* :1039 *) ("N0450M0825 BGH IFPSTOP THIS IS OAT TEXT IFPSTART STAY5", [(0%nat, "ADEP IFR N0450 M0825"); (1%nat, "BGH IFR N0450 M0825"); (2%nat, "IFPSTOP IFPS N0450 M0825 THIS IS OAT TEXT IFPSTART STAY5"); (3%nat, "ADES IFPS")], Some 0%nat, []);
  (* :1048 *) ("N0450M0825 BGH VFR THIS IS VFR TEXT IFR SID", [(0%nat, "ADEP IFR N0450 M0825"); (1%nat, "BGH IFR N0450 M0825"); (2%nat, "VFR VFR N0450 M0825 THIS IS VFR TEXT IFR SID"); (3%nat, "ADES VFR")], Some 0%nat, []);
  (* :1056 *) ("N0450M0825 BGH OAT THIS IS OAT TEXT GAT SID", [(0%nat, "ADEP IFR N0450 M0825"); (1%nat, "BGH IFR N0450 M0825"); (2%nat, "OAT OAT N0450 M0825 THIS IS OAT TEXT GAT SID"); (3%nat, "ADES OAT")], Some 0%nat, []);
  (* :1064 *) ("N0450M0825 BGH IFPSTOP THIS IS OAT TEXT IFPSTART SID", [(0%nat, "ADEP IFR N0450 M0825"); (1%nat, "BGH IFR N0450 M0825"); (2%nat, "IFPSTOP IFPS N0450 M0825 THIS IS OAT TEXT IFPSTART SID"); (3%nat, "ADES IFPS")], Some 0%nat, []);
  (* :1073 *) ("N0450M0825 BGH VFR THIS IS VFR TEXT IFR STAR", [(0%nat, "ADEP IFR N0450 M0825"); (1%nat, "BGH IFR N0450 M0825"); (2%nat, "VFR VFR N0450 M0825 THIS IS VFR TEXT IFR STAR"); (3%nat, "ADES VFR")], Some 0%nat, []);
  (* :1081 *) ("N0450M0825 BGH OAT THIS IS OAT TEXT GAT STAR", [(0%nat, "ADEP IFR N0450 M0825"); (1%nat, "BGH IFR N0450 M0825"); (2%nat, "OAT OAT N0450 M0825 THIS IS OAT TEXT GAT STAR"); (3%nat, "ADES OAT")], Some 0%nat, []);
  (* :1089 *) ("N0450M0825 BGH IFPSTOP THIS IS OAT TEXT IFPSTART STAR", [(0%nat, "ADEP IFR N0450 M0825"); (1%nat, "BGH IFR N0450 M0825"); (2%nat, "IFPSTOP IFPS N0450 M0825 THIS IS OAT TEXT IFPSTART STAR"); (3%nat, "ADES IFPS")], Some 0%nat, []);
  (* :1098 *) ("N0450M0826 BGH VFR THIS IS VFR TEXT IFR PNT", [(0%nat, "ADEP IFR N0450 M0826"); (1%nat, "BGH IFR N0450 M0826"); (2%nat, "VFR VFR N0450 M0826 THIS IS VFR TEXT IFR"); (3%nat, "PNT IFR N0450 M0826"); (4%nat, "ADES IFR")], Some 1%nat, [(0%nat, "Expecting '/SPEED/LEVEL' following 'PNT' to complete rule change to IFR")]);
  (* :1109 *) ("N0450M0827 BGH VFR THIS IS VFR TEXT IFR PNT/", [(0%nat, "ADEP IFR N0450 M0827"); (1%nat, "BGH IFR N0450 M0827"); (2%nat, "VFR VFR N0450 M0827 THIS IS VFR TEXT IFR"); (3%nat, "PNT IFR N0450 M0827"); (4%nat, "ADES IFR")], Some 2%nat, [(0%nat, "Expecting '/SPEED/LEVEL' following 'PNT' to complete rule change to IFR"); (1%nat, "Field 15 is incomplete, expecting additional data after the final '/'")]);
  (* :1122 *) ("N0450M0825 BGH VFR THIS IS VFR TEXT IFR PNT ABC", [(0%nat, "ADEP IFR N0450 M0825"); (1%nat, "BGH IFR N0450 M0825"); (2%nat, "VFR VFR N0450 M0825 THIS IS VFR TEXT IFR PNT ABC"); (3%nat, "ADES VFR")], Some 0%nat, []);
  (* :1131 *) ("N0450M0825 BGH VFR THIS IS VFR TEXT IFR PNT/B9", [(0%nat, "ADEP IFR N0450 M0825"); (1%nat, "BGH IFR N0450 M0825"); (2%nat, "VFR VFR N0450 M0825 THIS IS VFR TEXT IFR"); (3%nat, "PNT IFR N0450 M0825"); (4%nat, "ADES IFR")], Some 2%nat, [(0%nat, "Expecting '/SPEED/LEVEL' following 'PNT' to complete rule change to IFR"); (1%nat, "Expecting SPEED/LEVEL or SPEED/VFR after '/' instead of 'B9'")]);
  (* :1144 *) ("N0450M0825 BGH VFR THIS IS VFR TEXT IFR PNT/N0100F070", [(0%nat, "ADEP IFR N0450 M0825"); (1%nat, "BGH IFR N0450 M0825"); (2%nat, "VFR VFR N0450 M0825 THIS IS VFR TEXT IFR"); (3%nat, "PNT IFR N0100 F070"); (4%nat, "ADES IFR")], Some 0%nat, []);
  (* :1153 *) ("N0450M0825 BGH VFR THIS IS VFR TEXT IFR PNT/N0150VFR", [(0%nat, "ADEP IFR N0450 M0825"); (1%nat, "BGH IFR N0450 M0825"); (2%nat, "VFR VFR N0450 M0825 THIS IS VFR TEXT IFR"); (3%nat, "PNT IFR N0150 F050"); (4%nat, "VFR VFR N0150 F050"); (5%nat, "ADES VFR")], Some 0%nat, []);
  (* :1164 *) ("N0450M0825 ABC DEF", [(0%nat, "ADEP IFR N0450 M0825"); (1%nat, "ABC IFR N0450 M0825"); (2%nat, "DEF IFR N0450 M0825"); (3%nat, "ADES IFR")], Some 0%nat, []);
  (* :1172 *) ("N0450M0825 ABC 23N179E", [(0%nat, "ADEP IFR N0450 M0825"); (1%nat, "ABC IFR N0450 M0825"); (2%nat, "23N179E IFR N0450 M0825"); (3%nat, "ADES IFR")], Some 0%nat, []);
  (* :1180 *) ("N0450M0825 ABC 2314S12356W", [(0%nat, "ADEP IFR N0450 M0825"); (1%nat, "ABC IFR N0450 M0825"); (2%nat, "2314S12356W IFR N0450 M0825"); (3%nat, "ADES IFR")], Some 0%nat, []);
  (* :1188 *) ("N0450M0825 ABC 12N123E123456", [(0%nat, "ADEP IFR N0450 M0825"); (1%nat, "ABC IFR N0450 M0825"); (2%nat, "12N123E123456 IFR N0450 M0825"); (3%nat, "ADES IFR")], Some 0%nat, []);
  (* :1196 *) ("N0450M0825 ABC 1234S09012E", [(0%nat, "ADEP IFR N0450 M0825"); (1%nat, "ABC IFR N0450 M0825"); (2%nat, "1234S09012E IFR N0450 M0825"); (3%nat, "ADES IFR")], Some 0%nat, []);
  (* :1204 *) ("N0450M0825 ABC 91N181E", [(0%nat, "ADEP IFR N0450 M0825"); (1%nat, "ABC IFR N0450 M0825"); (2%nat, "91N181E IFR N0450 M0825"); (3%nat, "ADES IFR")], Some 2%nat, [(0%nat, "Latitude degree value must be 0 to 90 instead of '91N181E'"); (1%nat, "Longitude degree value must be 0 to 180 instead of '91N181E'")]);
  (* :1216 *) ("N0450M0825 ABC 8960N17960E", [(0%nat, "ADEP IFR N0450 M0825"); (1%nat, "ABC IFR N0450 M0825"); (2%nat, "8960N17960E IFR N0450 M0825"); (3%nat, "ADES IFR")], Some 2%nat, [(0%nat, "Latitude degree/minute value must be 0 to 9000 with minutes < 60 instead of '8960N17960E'"); (1%nat, "Longitude degree/minute value must be 0 to 18000 with minutes < 60 instead of '8960N17960E'")]);
  (* :1228 *) ("N0450M0825 ABC 89N179E B9", [(0%nat, "ADEP IFR N0450 M0825"); (1%nat, "ABC IFR N0450 M0825"); (2%nat, "89N179E IFR N0450 M0825"); (3%nat, "ADES IFR")], Some 1%nat, [(0%nat, "ATS route 'B9' cannot follow a Lat/Long point")]);
  (* :1239 *) ("N0450M0825 ABC DCT T", [(0%nat, "ADEP IFR N0450 M0825"); (1%nat, "ABC IFR N0450 M0825"); (2%nat, "DCT IFR N0450 M0825"); (3%nat, "ADES IFR")], Some 0%nat, []);
  (* :1247 *) ("N0450M0825 ABC DCT DEF", [(0%nat, "ADEP IFR N0450 M0825"); (1%nat, "ABC IFR N0450 M0825"); (2%nat, "DCT IFR N0450 M0825"); (3%nat, "DEF IFR N0450 M0825"); (4%nat, "ADES IFR")], Some 0%nat, []);
  (* :1256 *) ("N0450M0825 ABC DCT C", [(0%nat, "ADEP IFR N0450 M0825"); (1%nat, "ABC IFR N0450 M0825"); (2%nat, "DCT IFR N0450 M0825"); (3%nat, "C IFR N0450 M0825"); (4%nat, "ADES IFR")], Some 0%nat, []);
  (* :1265 *) ("N0450M0829 ABC DCT B9", [(0%nat, "ADEP IFR N0450 M0829"); (1%nat, "ABC IFR N0450 M0829"); (2%nat, "DCT IFR N0450 M0829"); (3%nat, "ADES IFR")], Some 1%nat, [(0%nat, "A 'DCT' must be followed by a point instead of 'B9'")]);
  (* :1276 *) ("N0450M0825 ABC STAY4", [(0%nat, "ADEP IFR N0450 M0825"); (1%nat, "ABC IFR N0450 M0825"); (2%nat, "ADES IFR")], Some 1%nat, [(0%nat, "Expecting STAY time as '/HHMM' after 'STAY4'")]);
  (* :1285 *) ("N0450M0831 ABC STAY4/", [(0%nat, "ADEP IFR N0450 M0831"); (1%nat, "ABC IFR N0450 M0831"); (2%nat, "ADES IFR")], Some 1%nat, [(0%nat, "Time value as HHMM token missing after '/'")]);
  (* :1294 *) ("N0450M0832 ABC STAY4/B9", [(0%nat, "ADEP IFR N0450 M0832"); (1%nat, "ABC IFR N0450 M0832"); (2%nat, "ADES IFR")], Some 1%nat, [(0%nat, "Expecting HHMM token following STAYx/ element")]);
  (* :1303 *) ("N0450M0833 ABC STAY4/1260", [(0%nat, "ADEP IFR N0450 M0833"); (1%nat, "ABC IFR N0450 M0833"); (2%nat, "ADES IFR")], Some 1%nat, [(0%nat, "Expecting HHMM token following STAYx/ element")]);
  (* :1312 *) ("N0450M0835 ABC STAY4/1259", [(0%nat, "ADEP IFR N0450 M0835"); (1%nat, "ABC IFR N0450 M0835"); (2%nat, "ADES IFR")], Some 0%nat, []);
  (* :1320 *) ("N0450M0840 ABC T DEF", [(0%nat, "ADEP IFR N0450 M0840"); (1%nat, "ABC IFR N0450 M0840"); (2%nat, "ADES IFR")], Some 1%nat, [(0%nat, "Expecting end of field 15 after truncation indicator 'T' instead od 'DEF'")]);
  (* :1329 *) ("N0450M0841 ABC T", [(0%nat, "ADEP IFR N0450 M0841"); (1%nat, "ABC IFR N0450 M0841"); (2%nat, "ADES IFR")], Some 0%nat, []);
  (* :1337 *) ("N0450M0840 ABC C", [(0%nat, "ADEP IFR N0450 M0840"); (1%nat, "ABC IFR N0450 M0840"); (2%nat, "C IFR N0450 M0840"); (3%nat, "ADES IFR")], Some 0%nat, []);
  (* :1345 *) ("N0450M0841 ABC C/", [(0%nat, "ADEP IFR N0450 M0841"); (1%nat, "ABC IFR N0450 M0841"); (2%nat, "C IFR N0450 M0841"); (3%nat, "ADES IFR")], Some 1%nat, [(0%nat, "Expecting point / speed / altitude / altitude after start of Cruise/Climb indicator 'C/'")]);
  (* :1355 *) ("N0450M0842 ABC C/PNT", [(0%nat, "ADEP IFR N0450 M0842"); (1%nat, "ABC IFR N0450 M0842"); (2%nat, "PNT IFR N0450 M0842"); (3%nat, "ADES IFR")], Some 1%nat, [(0%nat, "Expecting point / speed / altitude / altitude after start of Cruise/Climb indicator 'C/PNT'")]);
  (* :1365 *) ("N0450M0843 ABC C/PNT/", [(0%nat, "ADEP IFR N0450 M0843"); (1%nat, "ABC IFR N0450 M0843"); (2%nat, "PNT IFR N0450 M0843"); (3%nat, "ADES IFR")], Some 1%nat, [(0%nat, "Expecting speed / altitude / altitude after start of Cruise/Climb indicator 'C/PNT/'")]);
  (* :1375 *) ("N0450M0844 ABC C/PNT/N0100F110F220", [(0%nat, "ADEP IFR N0450 M0844"); (1%nat, "ABC IFR N0450 M0844"); (2%nat, "PNT IFR N0100 F110"); (3%nat, "ADES IFR")], Some 0%nat, []);
  (* :1383 *) ("N0450M0845 ABC C/PNT/N0100F110PLUS", [(0%nat, "ADEP IFR N0450 M0845"); (1%nat, "ABC IFR N0450 M0845"); (2%nat, "PNT IFR N0100 F110"); (3%nat, "ADES IFR")], Some 0%nat, []);
  (* :1391 *) ("N0450M0846 ABC C UNKNOWN", [(0%nat, "ADEP IFR N0450 M0846"); (1%nat, "ABC IFR N0450 M0846"); (2%nat, "ADES IFR")], Some 1%nat, [(0%nat, "The element 'UNKNOWN' is an unrecognised Field 15 element")]);
  (* :1400 *) ("N0450M0847 ABC C VFR", [(0%nat, "ADEP IFR N0450 M0847"); (1%nat, "ABC IFR N0450 M0847"); (2%nat, "C IFR N0450 M0847"); (3%nat, "VFR VFR N0450 M0847"); (4%nat, "ADES VFR")], Some 0%nat, []);
  (* :1409 *) ("N0450M0846 ABC C N0220VFR", [(0%nat, "ADEP IFR N0450 M0846"); (1%nat, "ABC IFR N0450 M0846"); (2%nat, "ADES IFR")], Some 1%nat, [(0%nat, "Expecting '/' before 'N0220VFR'")]);
  (* :1418 *) ("N0450M0846 ABC C GAT", [(0%nat, "ADEP IFR N0450 M0846"); (1%nat, "ABC IFR N0450 M0846"); (2%nat, "ADES IFR")], Some 1%nat, [(0%nat, "No OAT section preceding this 'GAT' rule change indicator")]);
  (* :1427 *) ("N0450M0846 ABC C DCT", [(0%nat, "ADEP IFR N0450 M0846"); (1%nat, "ABC IFR N0450 M0846"); (2%nat, "C IFR N0450 M0846"); (3%nat, "DCT IFR N0450 M0846"); (4%nat, "ADES IFR")], Some 0%nat, []);
  (* :1436 *) ("N0450M0846 ABC C STAY5", [(0%nat, "ADEP IFR N0450 M0846"); (1%nat, "ABC IFR N0450 M0846"); (2%nat, "C IFR N0450 M0846"); (3%nat, "ADES IFR")], Some 1%nat, [(0%nat, "Expecting STAY time as '/HHMM' after 'STAY5'")]);
  (* :1446 *) ("N0450M0846 ABC C T", [(0%nat, "ADEP IFR N0450 M0846"); (1%nat, "ABC IFR N0450 M0846"); (2%nat, "C IFR N0450 M0846"); (3%nat, "ADES IFR")], Some 0%nat, []);
  (* :1454 *) ("N0450M0846 ABC C C", [(0%nat, "ADEP IFR N0450 M0846"); (1%nat, "ABC IFR N0450 M0846"); (2%nat, "C IFR N0450 M0846"); (3%nat, "C IFR N0450 M0846"); (4%nat, "ADES IFR")], Some 0%nat, []);
  (* :1463 *) ("N0450M0846 ABC C PNT", [(0%nat, "ADEP IFR N0450 M0846"); (1%nat, "ABC IFR N0450 M0846"); (2%nat, "C IFR N0450 M0846"); (3%nat, "PNT IFR N0450 M0846"); (4%nat, "ADES IFR")], Some 0%nat, []);
  (* :1472 *) ("N0450M0846 ABC C B9", [(0%nat, "ADEP IFR N0450 M0846"); (1%nat, "ABC IFR N0450 M0846"); (2%nat, "C IFR N0450 M0846"); (3%nat, "B9 IFR N0450 M0846"); (4%nat, "ADES IFR")], Some 0%nat, []);
  (* :1481 *) ("N0450M0846 ABC C SID", [(0%nat, "ADEP IFR N0450 M0846"); (1%nat, "ABC IFR N0450 M0846"); (2%nat, "C IFR N0450 M0846"); (3%nat, "SID IFR N0450 M0846"); (4%nat, "ADES IFR")], Some 1%nat, [(0%nat, "SID 'SID' must follow the first SPEED/ALTITUDE and cannot appear anywhere else in field 15")]);
  (* :1492 *) ("N0450M0846 ABC C STAR", [(0%nat, "ADEP IFR N0450 M0846"); (1%nat, "ABC IFR N0450 M0846"); (2%nat, "C IFR N0450 M0846"); (3%nat, "STAR IFR N0450 M0846"); (4%nat, "ADES IFR")], Some 0%nat, []);
  (* :1501 *) ("N0450M0846 ABC C N0330F120", [(0%nat, "ADEP IFR N0450 M0846"); (1%nat, "ABC IFR N0450 M0846"); (2%nat, "ADES IFR")], Some 1%nat, [(0%nat, "Expecting '/' before 'N0330F120'")]);
  (* :1510 *) ("N0450M0846 ABC C N0200F100F200", [(0%nat, "ADEP IFR N0450 M0846"); (1%nat, "ABC IFR N0450 M0846"); (2%nat, "ADES IFR")], Some 1%nat, [(0%nat, "Expecting 'C/POINT/' before 'N0200F100F200'")]);
  (* :1519 *) ("N0450M0846 ABC C N0200F100PLUS", [(0%nat, "ADEP IFR N0450 M0846"); (1%nat, "ABC IFR N0450 M0846"); (2%nat, "ADES IFR")], Some 1%nat, [(0%nat, "Expecting 'C/POINT/' before 'N0200F100PLUS'")]);
  (* :1528 *) ("N0450M0846 ABC C ABCDEFGHIJKLMNOPQRSTUVWXYZ", [(0%nat, "ADEP IFR N0450 M0846"); (1%nat, "ABC IFR N0450 M0846"); (2%nat, "ADES IFR")], Some 1%nat, [(0%nat, "Element 'ABCDEFGHIJKLMNOPQRSTUVWXYZ' is too long for a Field 15 Element")]);
  (* :1537 *) ("N0450M0846 ABC C 1234", [(0%nat, "ADEP IFR N0450 M0846"); (1%nat, "ABC IFR N0450 M0846"); (2%nat, "ADES IFR")], Some 1%nat, [(0%nat, "Expecting the keyword 'STAY' before '1234'")]);
  (* :1546 *) ("N0450M0846 ABC C LNZ1A", [(0%nat, "ADEP IFR N0450 M0846"); (1%nat, "ABC IFR N0450 M0846"); (2%nat, "C IFR N0450 M0846"); (3%nat, "LNZ1A IFR N0450 M0846"); (4%nat, "ADES IFR")], Some 0%nat, []);
  (* :1555 *) ("N0450M0846 ABC C STAR", [(0%nat, "ADEP IFR N0450 M0846"); (1%nat, "ABC IFR N0450 M0846"); (2%nat, "C IFR N0450 M0846"); (3%nat, "STAR IFR N0450 M0846"); (4%nat, "ADES IFR")], Some 0%nat, []);
  (* :1565 *) ("N0450M0840 ABC B9 UNKNOWN", [(0%nat, "ADEP IFR N0450 M0840"); (1%nat, "ABC IFR N0450 M0840"); (2%nat, "B9 IFR N0450 M0840"); (3%nat, "ADES IFR")], Some 1%nat, [(0%nat, "The element 'UNKNOWN' is an unrecognised Field 15 element")]);
  (* :1575 *) ("N0450M0840 ABC B9 /", [(0%nat, "ADEP IFR N0450 M0840"); (1%nat, "ABC IFR N0450 M0840"); (2%nat, "B9 IFR N0450 M0840"); (3%nat, "ADES IFR")], Some 1%nat, [(0%nat, "Expecting a PRP after an ATS route instead of '/'")]);
  (* :1585 *) ("N0450M0840 ABC B9 VFR", [(0%nat, "ADEP IFR N0450 M0840"); (1%nat, "ABC IFR N0450 M0840"); (2%nat, "B9 IFR N0450 M0840"); (3%nat, "ADES IFR")], Some 1%nat, [(0%nat, "Rule change 'VFR' cannot occur following an ATS route element")]);
  (* :1595 *) ("N0450M0840 ABC B9 N0450VFR", [(0%nat, "ADEP IFR N0450 M0840"); (1%nat, "ABC IFR N0450 M0840"); (2%nat, "B9 IFR N0450 M0840"); (3%nat, "ADES IFR")], Some 1%nat, [(0%nat, "Rule change 'N0450VFR' cannot occur following an ATS route element")]);
  (* :1605 *) ("N0450M0840 ABC B9 IFR", [(0%nat, "ADEP IFR N0450 M0840"); (1%nat, "ABC IFR N0450 M0840"); (2%nat, "B9 IFR N0450 M0840"); (3%nat, "ADES IFR")], Some 1%nat, [(0%nat, "No VFR section preceding this 'IFR' rule change indicator")]);
  (* :1615 *) ("N0450M0840 ABC B9 DCT", [(0%nat, "ADEP IFR N0450 M0840"); (1%nat, "ABC IFR N0450 M0840"); (2%nat, "B9 IFR N0450 M0840"); (3%nat, "ADES IFR")], Some 1%nat, [(0%nat, "Cannot go direct ('DCT') from an ATS route element, must be preceded by a point")]);
  (* :1625 *) ("N0450M0840 ABC B9 STAY6", [(0%nat, "ADEP IFR N0450 M0840"); (1%nat, "ABC IFR N0450 M0840"); (2%nat, "B9 IFR N0450 M0840"); (3%nat, "ADES IFR")], Some 1%nat, [(0%nat, "'STAY6' must be preceded by a point")]);
  (* :1635 *) ("N0450M0840 ABC B9 T", [(0%nat, "ADEP IFR N0450 M0840"); (1%nat, "ABC IFR N0450 M0840"); (2%nat, "B9 IFR N0450 M0840"); (3%nat, "ADES IFR")], Some 0%nat, []);
  (* :1643 *) ("N0450M0840 ABC B9 C", [(0%nat, "ADEP IFR N0450 M0840"); (1%nat, "ABC IFR N0450 M0840"); (2%nat, "B9 IFR N0450 M0840"); (3%nat, "C IFR N0450 M0840"); (4%nat, "ADES IFR")], Some 0%nat, []);
  (* :1652 *) ("N0450M0840 ABC B9 PNT", [(0%nat, "ADEP IFR N0450 M0840"); (1%nat, "ABC IFR N0450 M0840"); (2%nat, "B9 IFR N0450 M0840"); (3%nat, "PNT IFR N0450 M0840"); (4%nat, "ADES IFR")], Some 0%nat, []);
  (* :1661 *) ("N0450M0840 ABC B9 A17", [(0%nat, "ADEP IFR N0450 M0840"); (1%nat, "ABC IFR N0450 M0840"); (2%nat, "B9 IFR N0450 M0840"); (3%nat, "ADES IFR")], Some 1%nat, [(0%nat, "Add crossing point between previous ATS route and 'A17'")]);
  (* :1671 *) ("N0450M0840 ABC B9 LNZ2R", [(0%nat, "ADEP IFR N0450 M0840"); (1%nat, "ABC IFR N0450 M0840"); (2%nat, "B9 IFR N0450 M0840"); (3%nat, "ADES IFR")], Some 1%nat, [(0%nat, "Add APF between previous ATS route and STAR 'LNZ2R'")]);
  (* :1681 *) ("N0450M0840 ABC B9 N0330F130", [(0%nat, "ADEP IFR N0450 M0840"); (1%nat, "ABC IFR N0450 M0840"); (2%nat, "B9 IFR N0450 M0840"); (3%nat, "ADES IFR")], Some 1%nat, [(0%nat, "The SPEED/LEVEL 'N0330F130' cannot follow an ATS route")]);
  (* :1691 *) ("N0450M0840 ABC B9 N0330F130F140", [(0%nat, "ADEP IFR N0450 M0840"); (1%nat, "ABC IFR N0450 M0840"); (2%nat, "B9 IFR N0450 M0840"); (3%nat, "ADES IFR")], Some 1%nat, [(0%nat, "Expecting 'C/POINT/' before 'N0330F130F140'")]);
  (* :1701 *) ("N0450M0840 ABC B9 N0330F130PLUS", [(0%nat, "ADEP IFR N0450 M0840"); (1%nat, "ABC IFR N0450 M0840"); (2%nat, "B9 IFR N0450 M0840"); (3%nat, "ADES IFR")], Some 1%nat, [(0%nat, "Expecting 'C/POINT/' before 'N0330F130PLUS'")]);
  (* :1711 *) ("N0450M0840 ABC B9 ABCDEFGHIJKLMNOPQRSTUVWXYZ", [(0%nat, "ADEP IFR N0450 M0840"); (1%nat, "ABC IFR N0450 M0840"); (2%nat, "B9 IFR N0450 M0840"); (3%nat, "ADES IFR")], Some 1%nat, [(0%nat, "Element 'ABCDEFGHIJKLMNOPQRSTUVWXYZ' is too long for a Field 15 Element")]);
  (* :1721 *) ("N0450M0840 ABC B9 2359", [(0%nat, "ADEP IFR N0450 M0840"); (1%nat, "ABC IFR N0450 M0840"); (2%nat, "B9 IFR N0450 M0840"); (3%nat, "ADES IFR")], Some 1%nat, [(0%nat, "Expecting the keyword 'STAY' before '2359'")]);
  (* :1731 *) ("N0450M0840 ABC B9 SID", [(0%nat, "ADEP IFR N0450 M0840"); (1%nat, "ABC IFR N0450 M0840"); (2%nat, "B9 IFR N0450 M0840"); (3%nat, "ADES IFR")], Some 1%nat, [(0%nat, "SID 'SID' must follow the first SPEED/ALTITUDE and cannot appear anywhere else in field 15")]);
  (* :1741 *) ("N0450M0840 ABC B9 NOLAN1D", [(0%nat, "ADEP IFR N0450 M0840"); (1%nat, "ABC IFR N0450 M0840"); (2%nat, "B9 IFR N0450 M0840"); (3%nat, "ADES IFR")], Some 1%nat, [(0%nat, "Add APF between previous ATS route and STAR 'NOLAN1D'")]);
  (* :1752 *) ("N0450M0825 00N000E B9 00N001E VFR IFR 00N001W/N0350F100 01N001W 01S001W 02S001W180060", [(0%nat, "ADEP IFR N0450 M0825"); (1%nat, "00N000E IFR N0450 M0825"); (2%nat, "00N001E IFR N0450 M0825"); (3%nat, "VFR VFR N0450 M0825 IFR"); (4%nat, "00N001W IFR N0350 F100"); (5%nat, "01N001W IFR N0350 F100"); (6%nat, "01S001W IFR N0350 F100"); (7%nat, "02S001W180060 IFR N0350 F100"); (8%nat, "ADES IFR")], Some 1%nat, [(0%nat, "ATS route 'B9' cannot follow a Lat/Long point")])].

Example all_unit_tests_agree : forallb check cases = true.
Proof. vm_compute. reflexivity. Qed.
