(** * Enums: generated by tools/gen_tables.py from F15_Parser/F15TokenSyntaxDescriptions.py. *)
From Coq Require Import ZArith NArith List String.
From Verif Require Import PyBase.
Import ListNotations.
Open Scope Z_scope.

(** TokenBaseType: F15TokenSyntaxDescriptions.py:11-29. *)
Inductive base_type :=
| F15_UNKNOWN
| F15_SLASH
| F15_BREAK_START
| F15_SPEED_VFR
| F15_BREAK_END
| F15_DCT
| F15_STAY
| F15_TRUNCATE
| F15_C
| F15_POINT
| F15_ROUTE
| F15_SID_STAR
| F15_SPEED_ALTITUDE
| F15_SPEED_ALTITUDE_ALTITUDE
| F15_SPEED_ALTITUDE_PLUS
| F15_TOO_LONG
| F15_STAY_TIME
| F15_SID
| F15_STAR.

(** The IntEnum value of a member (0, then auto()): F15TokenSyntaxDescriptions.py:11-29. *)
Definition base_code (x : base_type) : Z :=
  match x with
  | F15_UNKNOWN => 0
  | F15_SLASH => 1
  | F15_BREAK_START => 2
  | F15_SPEED_VFR => 3
  | F15_BREAK_END => 4
  | F15_DCT => 5
  | F15_STAY => 6
  | F15_TRUNCATE => 7
  | F15_C => 8
  | F15_POINT => 9
  | F15_ROUTE => 10
  | F15_SID_STAR => 11
  | F15_SPEED_ALTITUDE => 12
  | F15_SPEED_ALTITUDE_ALTITUDE => 13
  | F15_SPEED_ALTITUDE_PLUS => 14
  | F15_TOO_LONG => 15
  | F15_STAY_TIME => 16
  | F15_SID => 17
  | F15_STAR => 18
  end.

(** Inverse of [base_code], used only to decide equality. *)
Definition base_decode (z : Z) : option base_type :=
  match z with
  | 0 => Some F15_UNKNOWN
  | 1 => Some F15_SLASH
  | 2 => Some F15_BREAK_START
  | 3 => Some F15_SPEED_VFR
  | 4 => Some F15_BREAK_END
  | 5 => Some F15_DCT
  | 6 => Some F15_STAY
  | 7 => Some F15_TRUNCATE
  | 8 => Some F15_C
  | 9 => Some F15_POINT
  | 10 => Some F15_ROUTE
  | 11 => Some F15_SID_STAR
  | 12 => Some F15_SPEED_ALTITUDE
  | 13 => Some F15_SPEED_ALTITUDE_ALTITUDE
  | 14 => Some F15_SPEED_ALTITUDE_PLUS
  | 15 => Some F15_TOO_LONG
  | 16 => Some F15_STAY_TIME
  | 17 => Some F15_SID
  | 18 => Some F15_STAR
  | _ => None
  end.

(** The member's source name (what str() of the member shows after the class name under Python 3.10). *)
Definition base_name (x : base_type) : pstr :=
  match x with
  | F15_UNKNOWN => $"F15_UNKNOWN"
  | F15_SLASH => $"F15_SLASH"
  | F15_BREAK_START => $"F15_BREAK_START"
  | F15_SPEED_VFR => $"F15_SPEED_VFR"
  | F15_BREAK_END => $"F15_BREAK_END"
  | F15_DCT => $"F15_DCT"
  | F15_STAY => $"F15_STAY"
  | F15_TRUNCATE => $"F15_TRUNCATE"
  | F15_C => $"F15_C"
  | F15_POINT => $"F15_POINT"
  | F15_ROUTE => $"F15_ROUTE"
  | F15_SID_STAR => $"F15_SID_STAR"
  | F15_SPEED_ALTITUDE => $"F15_SPEED_ALTITUDE"
  | F15_SPEED_ALTITUDE_ALTITUDE => $"F15_SPEED_ALTITUDE_ALTITUDE"
  | F15_SPEED_ALTITUDE_PLUS => $"F15_SPEED_ALTITUDE_PLUS"
  | F15_TOO_LONG => $"F15_TOO_LONG"
  | F15_STAY_TIME => $"F15_STAY_TIME"
  | F15_SID => $"F15_SID"
  | F15_STAR => $"F15_STAR"
  end.

Lemma base_decode_code x : base_decode (base_code x) = Some x.
Proof. destruct x; reflexivity. Qed.

(** [==] / [is] between members of the same enumeration. *)
Definition base_eqb (x y : base_type) : bool := base_code x =? base_code y.

Lemma base_eqb_eq x y : base_eqb x y = true <-> x = y.
Proof.
  unfold base_eqb; rewrite Z.eqb_eq; split; [|intros ->; reflexivity].
  intros H. assert (E : Some x = Some y) by (rewrite <- !base_decode_code, H; reflexivity).
  congruence.
Qed.

Lemma base_eqb_neq x y : base_eqb x y = false <-> x <> y.
Proof. rewrite <- Bool.not_true_iff_false, base_eqb_eq; reflexivity. Qed.

Lemma base_eqb_refl x : base_eqb x x = true.
Proof. apply base_eqb_eq; reflexivity. Qed.

(** TokenSubType: F15TokenSyntaxDescriptions.py:39-143. *)
Inductive sub_type :=
| F15_SB_UNKNOWN
| F15_SB_IFR
| F15_SB_DCT
| F15_SB_VFR
| F15_SB_OAT
| F15_SB_GAT
| F15_SB_IFPSTART
| F15_SB_IFPSTOP
| F15_SB_STAY
| F15_SB_TRUNCATE
| F15_SB_C
| F15_SB_SID_LITERAL
| F15_SB_STAR_LITERAL
| F15_SB_PRP
| F15_SB_PRP_AERO
| F15_SB_PRP_BD
| F15_SB_LL_DEG
| F15_SB_LL_MIN
| F15_SB_LLBD_DEG
| F15_SB_LLBD_MIN
| F15_SB_ATS
| F15_SB_ATS_OLD
| F15_SB_ATS_TURK
| F15_SB_ATS_RUS
| F15_SB_STAR
| F15_SB_SID
| F15_SB_SPEED_ALTITUDE_KF
| F15_SB_SPEED_ALTITUDE_KS
| F15_SB_SPEED_ALTITUDE_KA
| F15_SB_SPEED_ALTITUDE_KM
| F15_SB_SPEED_ALTITUDE_KV
| F15_SB_SPEED_ALTITUDE_NF
| F15_SB_SPEED_ALTITUDE_NS
| F15_SB_SPEED_ALTITUDE_NA
| F15_SB_SPEED_ALTITUDE_NM
| F15_SB_SPEED_ALTITUDE_NV
| F15_SB_SPEED_ALTITUDE_MF
| F15_SB_SPEED_ALTITUDE_MS
| F15_SB_SPEED_ALTITUDE_MA
| F15_SB_SPEED_ALTITUDE_MM
| F15_SB_SPEED_ALTITUDE_MV
| F15_SB_SPEED_ALTITUDE_KFF
| F15_SB_SPEED_ALTITUDE_KFS
| F15_SB_SPEED_ALTITUDE_KFA
| F15_SB_SPEED_ALTITUDE_KFM
| F15_SB_SPEED_ALTITUDE_KSF
| F15_SB_SPEED_ALTITUDE_KSS
| F15_SB_SPEED_ALTITUDE_KSA
| F15_SB_SPEED_ALTITUDE_KSM
| F15_SB_SPEED_ALTITUDE_KAF
| F15_SB_SPEED_ALTITUDE_KAS
| F15_SB_SPEED_ALTITUDE_KAA
| F15_SB_SPEED_ALTITUDE_KAM
| F15_SB_SPEED_ALTITUDE_KMF
| F15_SB_SPEED_ALTITUDE_KMS
| F15_SB_SPEED_ALTITUDE_KMA
| F15_SB_SPEED_ALTITUDE_KMM
| F15_SB_SPEED_ALTITUDE_NFF
| F15_SB_SPEED_ALTITUDE_NFS
| F15_SB_SPEED_ALTITUDE_NFA
| F15_SB_SPEED_ALTITUDE_NFM
| F15_SB_SPEED_ALTITUDE_NSF
| F15_SB_SPEED_ALTITUDE_NSS
| F15_SB_SPEED_ALTITUDE_NSA
| F15_SB_SPEED_ALTITUDE_NSM
| F15_SB_SPEED_ALTITUDE_NAF
| F15_SB_SPEED_ALTITUDE_NAS
| F15_SB_SPEED_ALTITUDE_NAA
| F15_SB_SPEED_ALTITUDE_NAM
| F15_SB_SPEED_ALTITUDE_NMF
| F15_SB_SPEED_ALTITUDE_NMS
| F15_SB_SPEED_ALTITUDE_NMA
| F15_SB_SPEED_ALTITUDE_NMM
| F15_SB_SPEED_ALTITUDE_MFF
| F15_SB_SPEED_ALTITUDE_MFS
| F15_SB_SPEED_ALTITUDE_MFA
| F15_SB_SPEED_ALTITUDE_MFM
| F15_SB_SPEED_ALTITUDE_MSF
| F15_SB_SPEED_ALTITUDE_MSS
| F15_SB_SPEED_ALTITUDE_MSA
| F15_SB_SPEED_ALTITUDE_MSM
| F15_SB_SPEED_ALTITUDE_MAF
| F15_SB_SPEED_ALTITUDE_MAS
| F15_SB_SPEED_ALTITUDE_MAA
| F15_SB_SPEED_ALTITUDE_MAM
| F15_SB_SPEED_ALTITUDE_MMF
| F15_SB_SPEED_ALTITUDE_MMS
| F15_SB_SPEED_ALTITUDE_MMA
| F15_SB_SPEED_ALTITUDE_MMM
| F15_SB_SPEED_ALTITUDE_KF_P
| F15_SB_SPEED_ALTITUDE_KS_P
| F15_SB_SPEED_ALTITUDE_KA_P
| F15_SB_SPEED_ALTITUDE_KM_P
| F15_SB_SPEED_ALTITUDE_NF_P
| F15_SB_SPEED_ALTITUDE_NS_P
| F15_SB_SPEED_ALTITUDE_NA_P
| F15_SB_SPEED_ALTITUDE_NM_P
| F15_SB_SPEED_ALTITUDE_MF_P
| F15_SB_SPEED_ALTITUDE_MS_P
| F15_SB_SPEED_ALTITUDE_MA_P
| F15_SB_SPEED_ALTITUDE_MM_P
| F15_SB_STAY_TIME
| F15_SB_NAT
| F15_SB_PTS
| F15_SB_SLASH.

(** The IntEnum value of a member (0, then auto()): F15TokenSyntaxDescriptions.py:39-143. *)
Definition sub_code (x : sub_type) : Z :=
  match x with
  | F15_SB_UNKNOWN => 0
  | F15_SB_IFR => 1
  | F15_SB_DCT => 2
  | F15_SB_VFR => 3
  | F15_SB_OAT => 4
  | F15_SB_GAT => 5
  | F15_SB_IFPSTART => 6
  | F15_SB_IFPSTOP => 7
  | F15_SB_STAY => 8
  | F15_SB_TRUNCATE => 9
  | F15_SB_C => 10
  | F15_SB_SID_LITERAL => 11
  | F15_SB_STAR_LITERAL => 12
  | F15_SB_PRP => 13
  | F15_SB_PRP_AERO => 14
  | F15_SB_PRP_BD => 15
  | F15_SB_LL_DEG => 16
  | F15_SB_LL_MIN => 17
  | F15_SB_LLBD_DEG => 18
  | F15_SB_LLBD_MIN => 19
  | F15_SB_ATS => 20
  | F15_SB_ATS_OLD => 21
  | F15_SB_ATS_TURK => 22
  | F15_SB_ATS_RUS => 23
  | F15_SB_STAR => 24
  | F15_SB_SID => 25
  | F15_SB_SPEED_ALTITUDE_KF => 26
  | F15_SB_SPEED_ALTITUDE_KS => 27
  | F15_SB_SPEED_ALTITUDE_KA => 28
  | F15_SB_SPEED_ALTITUDE_KM => 29
  | F15_SB_SPEED_ALTITUDE_KV => 30
  | F15_SB_SPEED_ALTITUDE_NF => 31
  | F15_SB_SPEED_ALTITUDE_NS => 32
  | F15_SB_SPEED_ALTITUDE_NA => 33
  | F15_SB_SPEED_ALTITUDE_NM => 34
  | F15_SB_SPEED_ALTITUDE_NV => 35
  | F15_SB_SPEED_ALTITUDE_MF => 36
  | F15_SB_SPEED_ALTITUDE_MS => 37
  | F15_SB_SPEED_ALTITUDE_MA => 38
  | F15_SB_SPEED_ALTITUDE_MM => 39
  | F15_SB_SPEED_ALTITUDE_MV => 40
  | F15_SB_SPEED_ALTITUDE_KFF => 41
  | F15_SB_SPEED_ALTITUDE_KFS => 42
  | F15_SB_SPEED_ALTITUDE_KFA => 43
  | F15_SB_SPEED_ALTITUDE_KFM => 44
  | F15_SB_SPEED_ALTITUDE_KSF => 45
  | F15_SB_SPEED_ALTITUDE_KSS => 46
  | F15_SB_SPEED_ALTITUDE_KSA => 47
  | F15_SB_SPEED_ALTITUDE_KSM => 48
  | F15_SB_SPEED_ALTITUDE_KAF => 49
  | F15_SB_SPEED_ALTITUDE_KAS => 50
  | F15_SB_SPEED_ALTITUDE_KAA => 51
  | F15_SB_SPEED_ALTITUDE_KAM => 52
  | F15_SB_SPEED_ALTITUDE_KMF => 53
  | F15_SB_SPEED_ALTITUDE_KMS => 54
  | F15_SB_SPEED_ALTITUDE_KMA => 55
  | F15_SB_SPEED_ALTITUDE_KMM => 56
  | F15_SB_SPEED_ALTITUDE_NFF => 57
  | F15_SB_SPEED_ALTITUDE_NFS => 58
  | F15_SB_SPEED_ALTITUDE_NFA => 59
  | F15_SB_SPEED_ALTITUDE_NFM => 60
  | F15_SB_SPEED_ALTITUDE_NSF => 61
  | F15_SB_SPEED_ALTITUDE_NSS => 62
  | F15_SB_SPEED_ALTITUDE_NSA => 63
  | F15_SB_SPEED_ALTITUDE_NSM => 64
  | F15_SB_SPEED_ALTITUDE_NAF => 65
  | F15_SB_SPEED_ALTITUDE_NAS => 66
  | F15_SB_SPEED_ALTITUDE_NAA => 67
  | F15_SB_SPEED_ALTITUDE_NAM => 68
  | F15_SB_SPEED_ALTITUDE_NMF => 69
  | F15_SB_SPEED_ALTITUDE_NMS => 70
  | F15_SB_SPEED_ALTITUDE_NMA => 71
  | F15_SB_SPEED_ALTITUDE_NMM => 72
  | F15_SB_SPEED_ALTITUDE_MFF => 73
  | F15_SB_SPEED_ALTITUDE_MFS => 74
  | F15_SB_SPEED_ALTITUDE_MFA => 75
  | F15_SB_SPEED_ALTITUDE_MFM => 76
  | F15_SB_SPEED_ALTITUDE_MSF => 77
  | F15_SB_SPEED_ALTITUDE_MSS => 78
  | F15_SB_SPEED_ALTITUDE_MSA => 79
  | F15_SB_SPEED_ALTITUDE_MSM => 80
  | F15_SB_SPEED_ALTITUDE_MAF => 81
  | F15_SB_SPEED_ALTITUDE_MAS => 82
  | F15_SB_SPEED_ALTITUDE_MAA => 83
  | F15_SB_SPEED_ALTITUDE_MAM => 84
  | F15_SB_SPEED_ALTITUDE_MMF => 85
  | F15_SB_SPEED_ALTITUDE_MMS => 86
  | F15_SB_SPEED_ALTITUDE_MMA => 87
  | F15_SB_SPEED_ALTITUDE_MMM => 88
  | F15_SB_SPEED_ALTITUDE_KF_P => 89
  | F15_SB_SPEED_ALTITUDE_KS_P => 90
  | F15_SB_SPEED_ALTITUDE_KA_P => 91
  | F15_SB_SPEED_ALTITUDE_KM_P => 92
  | F15_SB_SPEED_ALTITUDE_NF_P => 93
  | F15_SB_SPEED_ALTITUDE_NS_P => 94
  | F15_SB_SPEED_ALTITUDE_NA_P => 95
  | F15_SB_SPEED_ALTITUDE_NM_P => 96
  | F15_SB_SPEED_ALTITUDE_MF_P => 97
  | F15_SB_SPEED_ALTITUDE_MS_P => 98
  | F15_SB_SPEED_ALTITUDE_MA_P => 99
  | F15_SB_SPEED_ALTITUDE_MM_P => 100
  | F15_SB_STAY_TIME => 101
  | F15_SB_NAT => 102
  | F15_SB_PTS => 103
  | F15_SB_SLASH => 104
  end.

(** Inverse of [sub_code], used only to decide equality. *)
Definition sub_decode (z : Z) : option sub_type :=
  match z with
  | 0 => Some F15_SB_UNKNOWN
  | 1 => Some F15_SB_IFR
  | 2 => Some F15_SB_DCT
  | 3 => Some F15_SB_VFR
  | 4 => Some F15_SB_OAT
  | 5 => Some F15_SB_GAT
  | 6 => Some F15_SB_IFPSTART
  | 7 => Some F15_SB_IFPSTOP
  | 8 => Some F15_SB_STAY
  | 9 => Some F15_SB_TRUNCATE
  | 10 => Some F15_SB_C
  | 11 => Some F15_SB_SID_LITERAL
  | 12 => Some F15_SB_STAR_LITERAL
  | 13 => Some F15_SB_PRP
  | 14 => Some F15_SB_PRP_AERO
  | 15 => Some F15_SB_PRP_BD
  | 16 => Some F15_SB_LL_DEG
  | 17 => Some F15_SB_LL_MIN
  | 18 => Some F15_SB_LLBD_DEG
  | 19 => Some F15_SB_LLBD_MIN
  | 20 => Some F15_SB_ATS
  | 21 => Some F15_SB_ATS_OLD
  | 22 => Some F15_SB_ATS_TURK
  | 23 => Some F15_SB_ATS_RUS
  | 24 => Some F15_SB_STAR
  | 25 => Some F15_SB_SID
  | 26 => Some F15_SB_SPEED_ALTITUDE_KF
  | 27 => Some F15_SB_SPEED_ALTITUDE_KS
  | 28 => Some F15_SB_SPEED_ALTITUDE_KA
  | 29 => Some F15_SB_SPEED_ALTITUDE_KM
  | 30 => Some F15_SB_SPEED_ALTITUDE_KV
  | 31 => Some F15_SB_SPEED_ALTITUDE_NF
  | 32 => Some F15_SB_SPEED_ALTITUDE_NS
  | 33 => Some F15_SB_SPEED_ALTITUDE_NA
  | 34 => Some F15_SB_SPEED_ALTITUDE_NM
  | 35 => Some F15_SB_SPEED_ALTITUDE_NV
  | 36 => Some F15_SB_SPEED_ALTITUDE_MF
  | 37 => Some F15_SB_SPEED_ALTITUDE_MS
  | 38 => Some F15_SB_SPEED_ALTITUDE_MA
  | 39 => Some F15_SB_SPEED_ALTITUDE_MM
  | 40 => Some F15_SB_SPEED_ALTITUDE_MV
  | 41 => Some F15_SB_SPEED_ALTITUDE_KFF
  | 42 => Some F15_SB_SPEED_ALTITUDE_KFS
  | 43 => Some F15_SB_SPEED_ALTITUDE_KFA
  | 44 => Some F15_SB_SPEED_ALTITUDE_KFM
  | 45 => Some F15_SB_SPEED_ALTITUDE_KSF
  | 46 => Some F15_SB_SPEED_ALTITUDE_KSS
  | 47 => Some F15_SB_SPEED_ALTITUDE_KSA
  | 48 => Some F15_SB_SPEED_ALTITUDE_KSM
  | 49 => Some F15_SB_SPEED_ALTITUDE_KAF
  | 50 => Some F15_SB_SPEED_ALTITUDE_KAS
  | 51 => Some F15_SB_SPEED_ALTITUDE_KAA
  | 52 => Some F15_SB_SPEED_ALTITUDE_KAM
  | 53 => Some F15_SB_SPEED_ALTITUDE_KMF
  | 54 => Some F15_SB_SPEED_ALTITUDE_KMS
  | 55 => Some F15_SB_SPEED_ALTITUDE_KMA
  | 56 => Some F15_SB_SPEED_ALTITUDE_KMM
  | 57 => Some F15_SB_SPEED_ALTITUDE_NFF
  | 58 => Some F15_SB_SPEED_ALTITUDE_NFS
  | 59 => Some F15_SB_SPEED_ALTITUDE_NFA
  | 60 => Some F15_SB_SPEED_ALTITUDE_NFM
  | 61 => Some F15_SB_SPEED_ALTITUDE_NSF
  | 62 => Some F15_SB_SPEED_ALTITUDE_NSS
  | 63 => Some F15_SB_SPEED_ALTITUDE_NSA
  | 64 => Some F15_SB_SPEED_ALTITUDE_NSM
  | 65 => Some F15_SB_SPEED_ALTITUDE_NAF
  | 66 => Some F15_SB_SPEED_ALTITUDE_NAS
  | 67 => Some F15_SB_SPEED_ALTITUDE_NAA
  | 68 => Some F15_SB_SPEED_ALTITUDE_NAM
  | 69 => Some F15_SB_SPEED_ALTITUDE_NMF
  | 70 => Some F15_SB_SPEED_ALTITUDE_NMS
  | 71 => Some F15_SB_SPEED_ALTITUDE_NMA
  | 72 => Some F15_SB_SPEED_ALTITUDE_NMM
  | 73 => Some F15_SB_SPEED_ALTITUDE_MFF
  | 74 => Some F15_SB_SPEED_ALTITUDE_MFS
  | 75 => Some F15_SB_SPEED_ALTITUDE_MFA
  | 76 => Some F15_SB_SPEED_ALTITUDE_MFM
  | 77 => Some F15_SB_SPEED_ALTITUDE_MSF
  | 78 => Some F15_SB_SPEED_ALTITUDE_MSS
  | 79 => Some F15_SB_SPEED_ALTITUDE_MSA
  | 80 => Some F15_SB_SPEED_ALTITUDE_MSM
  | 81 => Some F15_SB_SPEED_ALTITUDE_MAF
  | 82 => Some F15_SB_SPEED_ALTITUDE_MAS
  | 83 => Some F15_SB_SPEED_ALTITUDE_MAA
  | 84 => Some F15_SB_SPEED_ALTITUDE_MAM
  | 85 => Some F15_SB_SPEED_ALTITUDE_MMF
  | 86 => Some F15_SB_SPEED_ALTITUDE_MMS
  | 87 => Some F15_SB_SPEED_ALTITUDE_MMA
  | 88 => Some F15_SB_SPEED_ALTITUDE_MMM
  | 89 => Some F15_SB_SPEED_ALTITUDE_KF_P
  | 90 => Some F15_SB_SPEED_ALTITUDE_KS_P
  | 91 => Some F15_SB_SPEED_ALTITUDE_KA_P
  | 92 => Some F15_SB_SPEED_ALTITUDE_KM_P
  | 93 => Some F15_SB_SPEED_ALTITUDE_NF_P
  | 94 => Some F15_SB_SPEED_ALTITUDE_NS_P
  | 95 => Some F15_SB_SPEED_ALTITUDE_NA_P
  | 96 => Some F15_SB_SPEED_ALTITUDE_NM_P
  | 97 => Some F15_SB_SPEED_ALTITUDE_MF_P
  | 98 => Some F15_SB_SPEED_ALTITUDE_MS_P
  | 99 => Some F15_SB_SPEED_ALTITUDE_MA_P
  | 100 => Some F15_SB_SPEED_ALTITUDE_MM_P
  | 101 => Some F15_SB_STAY_TIME
  | 102 => Some F15_SB_NAT
  | 103 => Some F15_SB_PTS
  | 104 => Some F15_SB_SLASH
  | _ => None
  end.

(** The member's source name (what str() of the member shows after the class name under Python 3.10). *)
Definition sub_name (x : sub_type) : pstr :=
  match x with
  | F15_SB_UNKNOWN => $"F15_SB_UNKNOWN"
  | F15_SB_IFR => $"F15_SB_IFR"
  | F15_SB_DCT => $"F15_SB_DCT"
  | F15_SB_VFR => $"F15_SB_VFR"
  | F15_SB_OAT => $"F15_SB_OAT"
  | F15_SB_GAT => $"F15_SB_GAT"
  | F15_SB_IFPSTART => $"F15_SB_IFPSTART"
  | F15_SB_IFPSTOP => $"F15_SB_IFPSTOP"
  | F15_SB_STAY => $"F15_SB_STAY"
  | F15_SB_TRUNCATE => $"F15_SB_TRUNCATE"
  | F15_SB_C => $"F15_SB_C"
  | F15_SB_SID_LITERAL => $"F15_SB_SID_LITERAL"
  | F15_SB_STAR_LITERAL => $"F15_SB_STAR_LITERAL"
  | F15_SB_PRP => $"F15_SB_PRP"
  | F15_SB_PRP_AERO => $"F15_SB_PRP_AERO"
  | F15_SB_PRP_BD => $"F15_SB_PRP_BD"
  | F15_SB_LL_DEG => $"F15_SB_LL_DEG"
  | F15_SB_LL_MIN => $"F15_SB_LL_MIN"
  | F15_SB_LLBD_DEG => $"F15_SB_LLBD_DEG"
  | F15_SB_LLBD_MIN => $"F15_SB_LLBD_MIN"
  | F15_SB_ATS => $"F15_SB_ATS"
  | F15_SB_ATS_OLD => $"F15_SB_ATS_OLD"
  | F15_SB_ATS_TURK => $"F15_SB_ATS_TURK"
  | F15_SB_ATS_RUS => $"F15_SB_ATS_RUS"
  | F15_SB_STAR => $"F15_SB_STAR"
  | F15_SB_SID => $"F15_SB_SID"
  | F15_SB_SPEED_ALTITUDE_KF => $"F15_SB_SPEED_ALTITUDE_KF"
  | F15_SB_SPEED_ALTITUDE_KS => $"F15_SB_SPEED_ALTITUDE_KS"
  | F15_SB_SPEED_ALTITUDE_KA => $"F15_SB_SPEED_ALTITUDE_KA"
  | F15_SB_SPEED_ALTITUDE_KM => $"F15_SB_SPEED_ALTITUDE_KM"
  | F15_SB_SPEED_ALTITUDE_KV => $"F15_SB_SPEED_ALTITUDE_KV"
  | F15_SB_SPEED_ALTITUDE_NF => $"F15_SB_SPEED_ALTITUDE_NF"
  | F15_SB_SPEED_ALTITUDE_NS => $"F15_SB_SPEED_ALTITUDE_NS"
  | F15_SB_SPEED_ALTITUDE_NA => $"F15_SB_SPEED_ALTITUDE_NA"
  | F15_SB_SPEED_ALTITUDE_NM => $"F15_SB_SPEED_ALTITUDE_NM"
  | F15_SB_SPEED_ALTITUDE_NV => $"F15_SB_SPEED_ALTITUDE_NV"
  | F15_SB_SPEED_ALTITUDE_MF => $"F15_SB_SPEED_ALTITUDE_MF"
  | F15_SB_SPEED_ALTITUDE_MS => $"F15_SB_SPEED_ALTITUDE_MS"
  | F15_SB_SPEED_ALTITUDE_MA => $"F15_SB_SPEED_ALTITUDE_MA"
  | F15_SB_SPEED_ALTITUDE_MM => $"F15_SB_SPEED_ALTITUDE_MM"
  | F15_SB_SPEED_ALTITUDE_MV => $"F15_SB_SPEED_ALTITUDE_MV"
  | F15_SB_SPEED_ALTITUDE_KFF => $"F15_SB_SPEED_ALTITUDE_KFF"
  | F15_SB_SPEED_ALTITUDE_KFS => $"F15_SB_SPEED_ALTITUDE_KFS"
  | F15_SB_SPEED_ALTITUDE_KFA => $"F15_SB_SPEED_ALTITUDE_KFA"
  | F15_SB_SPEED_ALTITUDE_KFM => $"F15_SB_SPEED_ALTITUDE_KFM"
  | F15_SB_SPEED_ALTITUDE_KSF => $"F15_SB_SPEED_ALTITUDE_KSF"
  | F15_SB_SPEED_ALTITUDE_KSS => $"F15_SB_SPEED_ALTITUDE_KSS"
  | F15_SB_SPEED_ALTITUDE_KSA => $"F15_SB_SPEED_ALTITUDE_KSA"
  | F15_SB_SPEED_ALTITUDE_KSM => $"F15_SB_SPEED_ALTITUDE_KSM"
  | F15_SB_SPEED_ALTITUDE_KAF => $"F15_SB_SPEED_ALTITUDE_KAF"
  | F15_SB_SPEED_ALTITUDE_KAS => $"F15_SB_SPEED_ALTITUDE_KAS"
  | F15_SB_SPEED_ALTITUDE_KAA => $"F15_SB_SPEED_ALTITUDE_KAA"
  | F15_SB_SPEED_ALTITUDE_KAM => $"F15_SB_SPEED_ALTITUDE_KAM"
  | F15_SB_SPEED_ALTITUDE_KMF => $"F15_SB_SPEED_ALTITUDE_KMF"
  | F15_SB_SPEED_ALTITUDE_KMS => $"F15_SB_SPEED_ALTITUDE_KMS"
  | F15_SB_SPEED_ALTITUDE_KMA => $"F15_SB_SPEED_ALTITUDE_KMA"
  | F15_SB_SPEED_ALTITUDE_KMM => $"F15_SB_SPEED_ALTITUDE_KMM"
  | F15_SB_SPEED_ALTITUDE_NFF => $"F15_SB_SPEED_ALTITUDE_NFF"
  | F15_SB_SPEED_ALTITUDE_NFS => $"F15_SB_SPEED_ALTITUDE_NFS"
  | F15_SB_SPEED_ALTITUDE_NFA => $"F15_SB_SPEED_ALTITUDE_NFA"
  | F15_SB_SPEED_ALTITUDE_NFM => $"F15_SB_SPEED_ALTITUDE_NFM"
  | F15_SB_SPEED_ALTITUDE_NSF => $"F15_SB_SPEED_ALTITUDE_NSF"
  | F15_SB_SPEED_ALTITUDE_NSS => $"F15_SB_SPEED_ALTITUDE_NSS"
  | F15_SB_SPEED_ALTITUDE_NSA => $"F15_SB_SPEED_ALTITUDE_NSA"
  | F15_SB_SPEED_ALTITUDE_NSM => $"F15_SB_SPEED_ALTITUDE_NSM"
  | F15_SB_SPEED_ALTITUDE_NAF => $"F15_SB_SPEED_ALTITUDE_NAF"
  | F15_SB_SPEED_ALTITUDE_NAS => $"F15_SB_SPEED_ALTITUDE_NAS"
  | F15_SB_SPEED_ALTITUDE_NAA => $"F15_SB_SPEED_ALTITUDE_NAA"
  | F15_SB_SPEED_ALTITUDE_NAM => $"F15_SB_SPEED_ALTITUDE_NAM"
  | F15_SB_SPEED_ALTITUDE_NMF => $"F15_SB_SPEED_ALTITUDE_NMF"
  | F15_SB_SPEED_ALTITUDE_NMS => $"F15_SB_SPEED_ALTITUDE_NMS"
  | F15_SB_SPEED_ALTITUDE_NMA => $"F15_SB_SPEED_ALTITUDE_NMA"
  | F15_SB_SPEED_ALTITUDE_NMM => $"F15_SB_SPEED_ALTITUDE_NMM"
  | F15_SB_SPEED_ALTITUDE_MFF => $"F15_SB_SPEED_ALTITUDE_MFF"
  | F15_SB_SPEED_ALTITUDE_MFS => $"F15_SB_SPEED_ALTITUDE_MFS"
  | F15_SB_SPEED_ALTITUDE_MFA => $"F15_SB_SPEED_ALTITUDE_MFA"
  | F15_SB_SPEED_ALTITUDE_MFM => $"F15_SB_SPEED_ALTITUDE_MFM"
  | F15_SB_SPEED_ALTITUDE_MSF => $"F15_SB_SPEED_ALTITUDE_MSF"
  | F15_SB_SPEED_ALTITUDE_MSS => $"F15_SB_SPEED_ALTITUDE_MSS"
  | F15_SB_SPEED_ALTITUDE_MSA => $"F15_SB_SPEED_ALTITUDE_MSA"
  | F15_SB_SPEED_ALTITUDE_MSM => $"F15_SB_SPEED_ALTITUDE_MSM"
  | F15_SB_SPEED_ALTITUDE_MAF => $"F15_SB_SPEED_ALTITUDE_MAF"
  | F15_SB_SPEED_ALTITUDE_MAS => $"F15_SB_SPEED_ALTITUDE_MAS"
  | F15_SB_SPEED_ALTITUDE_MAA => $"F15_SB_SPEED_ALTITUDE_MAA"
  | F15_SB_SPEED_ALTITUDE_MAM => $"F15_SB_SPEED_ALTITUDE_MAM"
  | F15_SB_SPEED_ALTITUDE_MMF => $"F15_SB_SPEED_ALTITUDE_MMF"
  | F15_SB_SPEED_ALTITUDE_MMS => $"F15_SB_SPEED_ALTITUDE_MMS"
  | F15_SB_SPEED_ALTITUDE_MMA => $"F15_SB_SPEED_ALTITUDE_MMA"
  | F15_SB_SPEED_ALTITUDE_MMM => $"F15_SB_SPEED_ALTITUDE_MMM"
  | F15_SB_SPEED_ALTITUDE_KF_P => $"F15_SB_SPEED_ALTITUDE_KF_P"
  | F15_SB_SPEED_ALTITUDE_KS_P => $"F15_SB_SPEED_ALTITUDE_KS_P"
  | F15_SB_SPEED_ALTITUDE_KA_P => $"F15_SB_SPEED_ALTITUDE_KA_P"
  | F15_SB_SPEED_ALTITUDE_KM_P => $"F15_SB_SPEED_ALTITUDE_KM_P"
  | F15_SB_SPEED_ALTITUDE_NF_P => $"F15_SB_SPEED_ALTITUDE_NF_P"
  | F15_SB_SPEED_ALTITUDE_NS_P => $"F15_SB_SPEED_ALTITUDE_NS_P"
  | F15_SB_SPEED_ALTITUDE_NA_P => $"F15_SB_SPEED_ALTITUDE_NA_P"
  | F15_SB_SPEED_ALTITUDE_NM_P => $"F15_SB_SPEED_ALTITUDE_NM_P"
  | F15_SB_SPEED_ALTITUDE_MF_P => $"F15_SB_SPEED_ALTITUDE_MF_P"
  | F15_SB_SPEED_ALTITUDE_MS_P => $"F15_SB_SPEED_ALTITUDE_MS_P"
  | F15_SB_SPEED_ALTITUDE_MA_P => $"F15_SB_SPEED_ALTITUDE_MA_P"
  | F15_SB_SPEED_ALTITUDE_MM_P => $"F15_SB_SPEED_ALTITUDE_MM_P"
  | F15_SB_STAY_TIME => $"F15_SB_STAY_TIME"
  | F15_SB_NAT => $"F15_SB_NAT"
  | F15_SB_PTS => $"F15_SB_PTS"
  | F15_SB_SLASH => $"F15_SB_SLASH"
  end.

Lemma sub_decode_code x : sub_decode (sub_code x) = Some x.
Proof. destruct x; reflexivity. Qed.

(** [==] / [is] between members of the same enumeration. *)
Definition sub_eqb (x y : sub_type) : bool := sub_code x =? sub_code y.

Lemma sub_eqb_eq x y : sub_eqb x y = true <-> x = y.
Proof.
  unfold sub_eqb; rewrite Z.eqb_eq; split; [|intros ->; reflexivity].
  intros H. assert (E : Some x = Some y) by (rewrite <- !sub_decode_code, H; reflexivity).
  congruence.
Qed.

Lemma sub_eqb_neq x y : sub_eqb x y = false <-> x <> y.
Proof. rewrite <- Bool.not_true_iff_false, sub_eqb_eq; reflexivity. Qed.

Lemma sub_eqb_refl x : sub_eqb x x = true.
Proof. apply sub_eqb_eq; reflexivity. Qed.

