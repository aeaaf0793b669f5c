(** * SyntaxTable: F15_SB_CONFIGURATION, transcribed literally (regular expressions kept as
    strings) by tools/gen_tables.py from F15_Parser/F15TokenSyntaxDescriptions.py:164-380. *)
From Coq Require Import ZArith NArith List String.
From Verif Require Import PyBase Enums.
Import ListNotations.
Open Scope string_scope.

Definition f15_configuration : list (string * base_type * sub_type) :=
  [ ("/", F15_SLASH, F15_SB_SLASH) (* :167 *)
  ; ("VFR", F15_BREAK_START, F15_SB_VFR) (* :169 *)
  ; ("M[0-9]{3}VFR", F15_SPEED_VFR, F15_SB_SPEED_ALTITUDE_MV) (* :171 *)
  ; ("N[0-9]{4}VFR", F15_SPEED_VFR, F15_SB_SPEED_ALTITUDE_NV) (* :173 *)
  ; ("K[0-9]{4}VFR", F15_SPEED_VFR, F15_SB_SPEED_ALTITUDE_KV) (* :175 *)
  ; ("IFR", F15_BREAK_END, F15_SB_IFR) (* :177 *)
  ; ("DCT", F15_DCT, F15_SB_DCT) (* :179 *)
  ; ("OAT", F15_BREAK_START, F15_SB_OAT) (* :181 *)
  ; ("GAT", F15_BREAK_END, F15_SB_GAT) (* :183 *)
  ; ("IFPSTOP", F15_BREAK_START, F15_SB_IFPSTOP) (* :185 *)
  ; ("IFPSTART", F15_BREAK_END, F15_SB_IFPSTART) (* :187 *)
  ; ("STAY[0-9]", F15_STAY, F15_SB_STAY) (* :189 *)
  ; ("([01][0-9][0-5][0-9]|2[0-3][0-5][0-9])", F15_STAY_TIME, F15_SB_STAY_TIME) (* :191 *)
  ; ("T", F15_TRUNCATE, F15_SB_TRUNCATE) (* :193 *)
  ; ("C", F15_C, F15_SB_C) (* :195 *)
  ; ("SID", F15_SID, F15_SB_SID_LITERAL) (* :197 *)
  ; ("STAR", F15_STAR, F15_SB_STAR_LITERAL) (* :199 *)
  ; ("NAT[A-Z]", F15_ROUTE, F15_SB_NAT) (* :201 *)
  ; ("NAT[A-Z][0-9]", F15_ROUTE, F15_SB_NAT) (* :202 *)
  ; ("PTS[0-9]", F15_ROUTE, F15_SB_PTS) (* :204 *)
  ; ("PTS[A-Z]", F15_ROUTE, F15_SB_PTS) (* :205 *)
  ; ("[A-Z]{1,3}", F15_POINT, F15_SB_PRP) (* :209 *)
  ; ("[A-Z]{4}", F15_POINT, F15_SB_PRP_AERO) (* :211 *)
  ; ("[A-Z]{5}", F15_POINT, F15_SB_PRP) (* :213 *)
  ; ("[A-Z]{1,5}[0-9]{6}", F15_POINT, F15_SB_PRP_BD) (* :215 *)
  ; ("[0-9]{2}[NS][0-9]{3}[EW]", F15_POINT, F15_SB_LL_DEG) (* :217 *)
  ; ("[0-9]{4}[NS][0-9]{5}[EW]", F15_POINT, F15_SB_LL_MIN) (* :219 *)
  ; ("[0-9]{2}[NS][0-9]{3}[EW][0-9]{6}", F15_POINT, F15_SB_LLBD_DEG) (* :221 *)
  ; ("[0-9]{4}[NS][0-9]{5}[EW][0-9]{6}", F15_POINT, F15_SB_LLBD_MIN) (* :223 *)
  ; ("[A-Z]{1,2}[0-9]", F15_ROUTE, F15_SB_ATS) (* :227 *)
  ; ("[A-Z][0-9]{1,3}[A-Z]", F15_ROUTE, F15_SB_ATS) (* :229 *)
  ; ("[A-Z][0-9]{2,3}", F15_ROUTE, F15_SB_ATS) (* :231 *)
  ; ("[A-Z]{3}[0-9]{3}", F15_ROUTE, F15_SB_ATS_TURK) (* :233 *)
  ; ("[A-Z]{3}[0-9]{1,2}", F15_ROUTE, F15_SB_ATS_OLD) (* :235 *)
  ; ("[A-Z]{2}[0-9][A-Z]", F15_ROUTE, F15_SB_ATS) (* :237 *)
  ; ("[A-Z]{2}[0-9]{2,3}", F15_ROUTE, F15_SB_ATS) (* :239 *)
  ; ("[A-Z]{4}[0-9]{1,2}", F15_ROUTE, F15_SB_ATS_RUS) (* :241 *)
  ; ("[A-Z]{2}[0-9]{2,3}[A-Z]", F15_ROUTE, F15_SB_ATS) (* :243 *)
  ; ("[A-Z][0-9]{3}[A-Z]", F15_ROUTE, F15_SB_ATS_TURK) (* :245 *)
  ; ("[A-Z]{3}[0-9]{1,2}[A-Z]", F15_SID_STAR, F15_SB_STAR) (* :249 *)
  ; ("[A-Z]{5}[0-9]{1,2}", F15_SID_STAR, F15_SB_STAR) (* :251 *)
  ; ("[A-Z]{4,6}[0-9][A-Z]", F15_SID_STAR, F15_SB_STAR) (* :253 *)
  ; ("[A-Z]{5}[0-9]{2}[A-Z]", F15_SID_STAR, F15_SB_STAR) (* :255 *)
  ; ("M[0-9]{3}F[0-9]{3}", F15_SPEED_ALTITUDE, F15_SB_SPEED_ALTITUDE_MF) (* :258 *)
  ; ("M[0-9]{3}S[0-9]{4}", F15_SPEED_ALTITUDE, F15_SB_SPEED_ALTITUDE_MS) (* :259 *)
  ; ("M[0-9]{3}A[0-9]{3}", F15_SPEED_ALTITUDE, F15_SB_SPEED_ALTITUDE_MA) (* :260 *)
  ; ("M[0-9]{3}M[0-9]{4}", F15_SPEED_ALTITUDE, F15_SB_SPEED_ALTITUDE_MM) (* :261 *)
  ; ("K[0-9]{4}F[0-9]{3}", F15_SPEED_ALTITUDE, F15_SB_SPEED_ALTITUDE_KF) (* :262 *)
  ; ("K[0-9]{4}S[0-9]{4}", F15_SPEED_ALTITUDE, F15_SB_SPEED_ALTITUDE_KS) (* :263 *)
  ; ("K[0-9]{4}A[0-9]{3}", F15_SPEED_ALTITUDE, F15_SB_SPEED_ALTITUDE_KA) (* :264 *)
  ; ("K[0-9]{4}M[0-9]{4}", F15_SPEED_ALTITUDE, F15_SB_SPEED_ALTITUDE_KM) (* :265 *)
  ; ("N[0-9]{4}F[0-9]{3}", F15_SPEED_ALTITUDE, F15_SB_SPEED_ALTITUDE_NF) (* :266 *)
  ; ("N[0-9]{4}S[0-9]{4}", F15_SPEED_ALTITUDE, F15_SB_SPEED_ALTITUDE_NS) (* :267 *)
  ; ("N[0-9]{4}A[0-9]{3}", F15_SPEED_ALTITUDE, F15_SB_SPEED_ALTITUDE_NA) (* :268 *)
  ; ("N[0-9]{4}M[0-9]{4}", F15_SPEED_ALTITUDE, F15_SB_SPEED_ALTITUDE_NM) (* :269 *)
  ; ("M[0-9]{3}F[0-9]{3}F[0-9]{3}", F15_SPEED_ALTITUDE_ALTITUDE, F15_SB_SPEED_ALTITUDE_MFF) (* :272 *)
  ; ("M[0-9]{3}F[0-9]{3}S[0-9]{4}", F15_SPEED_ALTITUDE_ALTITUDE, F15_SB_SPEED_ALTITUDE_MFS) (* :274 *)
  ; ("M[0-9]{3}F[0-9]{3}A[0-9]{3}", F15_SPEED_ALTITUDE_ALTITUDE, F15_SB_SPEED_ALTITUDE_MFA) (* :276 *)
  ; ("M[0-9]{3}F[0-9]{3}M[0-9]{4}", F15_SPEED_ALTITUDE_ALTITUDE, F15_SB_SPEED_ALTITUDE_MFM) (* :278 *)
  ; ("M[0-9]{3}S[0-9]{4}F[0-9]{3}", F15_SPEED_ALTITUDE_ALTITUDE, F15_SB_SPEED_ALTITUDE_MSF) (* :280 *)
  ; ("M[0-9]{3}S[0-9]{4}S[0-9]{4}", F15_SPEED_ALTITUDE_ALTITUDE, F15_SB_SPEED_ALTITUDE_MSS) (* :282 *)
  ; ("M[0-9]{3}S[0-9]{4}A[0-9]{3}", F15_SPEED_ALTITUDE_ALTITUDE, F15_SB_SPEED_ALTITUDE_MSA) (* :284 *)
  ; ("M[0-9]{3}S[0-9]{4}M[0-9]{4}", F15_SPEED_ALTITUDE_ALTITUDE, F15_SB_SPEED_ALTITUDE_MSM) (* :286 *)
  ; ("M[0-9]{3}A[0-9]{3}F[0-9]{3}", F15_SPEED_ALTITUDE_ALTITUDE, F15_SB_SPEED_ALTITUDE_MAF) (* :288 *)
  ; ("M[0-9]{3}A[0-9]{3}S[0-9]{4}", F15_SPEED_ALTITUDE_ALTITUDE, F15_SB_SPEED_ALTITUDE_MAS) (* :290 *)
  ; ("M[0-9]{3}A[0-9]{3}A[0-9]{3}", F15_SPEED_ALTITUDE_ALTITUDE, F15_SB_SPEED_ALTITUDE_MAA) (* :292 *)
  ; ("M[0-9]{3}A[0-9]{3}M[0-9]{4}", F15_SPEED_ALTITUDE_ALTITUDE, F15_SB_SPEED_ALTITUDE_MAM) (* :294 *)
  ; ("M[0-9]{3}M[0-9]{4}F[0-9]{3}", F15_SPEED_ALTITUDE_ALTITUDE, F15_SB_SPEED_ALTITUDE_MMF) (* :296 *)
  ; ("M[0-9]{3}M[0-9]{4}S[0-9]{4}", F15_SPEED_ALTITUDE_ALTITUDE, F15_SB_SPEED_ALTITUDE_MMS) (* :298 *)
  ; ("M[0-9]{3}M[0-9]{4}A[0-9]{3}", F15_SPEED_ALTITUDE_ALTITUDE, F15_SB_SPEED_ALTITUDE_MMA) (* :300 *)
  ; ("M[0-9]{3}M[0-9]{4}M[0-9]{4}", F15_SPEED_ALTITUDE_ALTITUDE, F15_SB_SPEED_ALTITUDE_MMM) (* :302 *)
  ; ("N[0-9]{4}F[0-9]{3}F[0-9]{3}", F15_SPEED_ALTITUDE_ALTITUDE, F15_SB_SPEED_ALTITUDE_NFF) (* :304 *)
  ; ("N[0-9]{4}F[0-9]{3}S[0-9]{4}", F15_SPEED_ALTITUDE_ALTITUDE, F15_SB_SPEED_ALTITUDE_NFS) (* :306 *)
  ; ("N[0-9]{4}F[0-9]{3}A[0-9]{3}", F15_SPEED_ALTITUDE_ALTITUDE, F15_SB_SPEED_ALTITUDE_NFA) (* :308 *)
  ; ("N[0-9]{4}F[0-9]{3}M[0-9]{4}", F15_SPEED_ALTITUDE_ALTITUDE, F15_SB_SPEED_ALTITUDE_NFM) (* :310 *)
  ; ("N[0-9]{4}S[0-9]{4}F[0-9]{3}", F15_SPEED_ALTITUDE_ALTITUDE, F15_SB_SPEED_ALTITUDE_NSF) (* :312 *)
  ; ("N[0-9]{4}S[0-9]{4}S[0-9]{4}", F15_SPEED_ALTITUDE_ALTITUDE, F15_SB_SPEED_ALTITUDE_NSS) (* :314 *)
  ; ("N[0-9]{4}S[0-9]{4}A[0-9]{3}", F15_SPEED_ALTITUDE_ALTITUDE, F15_SB_SPEED_ALTITUDE_NSA) (* :316 *)
  ; ("N[0-9]{4}S[0-9]{4}M[0-9]{4}", F15_SPEED_ALTITUDE_ALTITUDE, F15_SB_SPEED_ALTITUDE_NSM) (* :318 *)
  ; ("N[0-9]{4}A[0-9]{3}F[0-9]{3}", F15_SPEED_ALTITUDE_ALTITUDE, F15_SB_SPEED_ALTITUDE_NAF) (* :320 *)
  ; ("N[0-9]{4}A[0-9]{4}S[0-9]{4}", F15_SPEED_ALTITUDE_ALTITUDE, F15_SB_SPEED_ALTITUDE_NAS) (* :322 *)
  ; ("N[0-9]{4}A[0-9]{3}A[0-9]{3}", F15_SPEED_ALTITUDE_ALTITUDE, F15_SB_SPEED_ALTITUDE_NAA) (* :324 *)
  ; ("N[0-9]{4}A[0-9]{4}M[0-9]{4}", F15_SPEED_ALTITUDE_ALTITUDE, F15_SB_SPEED_ALTITUDE_NAM) (* :326 *)
  ; ("N[0-9]{4}M[0-9]{4}F[0-9]{3}", F15_SPEED_ALTITUDE_ALTITUDE, F15_SB_SPEED_ALTITUDE_NMF) (* :328 *)
  ; ("N[0-9]{4}M[0-9]{4}S[0-9]{4}", F15_SPEED_ALTITUDE_ALTITUDE, F15_SB_SPEED_ALTITUDE_NMS) (* :330 *)
  ; ("N[0-9]{4}M[0-9]{4}A[0-9]{3}", F15_SPEED_ALTITUDE_ALTITUDE, F15_SB_SPEED_ALTITUDE_NMA) (* :332 *)
  ; ("N[0-9]{4}M[0-9]{4}M[0-9]{4}", F15_SPEED_ALTITUDE_ALTITUDE, F15_SB_SPEED_ALTITUDE_NMM) (* :334 *)
  ; ("K[0-9]{4}F[0-9]{3}F[0-9]{3}", F15_SPEED_ALTITUDE_ALTITUDE, F15_SB_SPEED_ALTITUDE_KFF) (* :336 *)
  ; ("K[0-9]{4}F[0-9]{3}S[0-9]{4}", F15_SPEED_ALTITUDE_ALTITUDE, F15_SB_SPEED_ALTITUDE_KFS) (* :338 *)
  ; ("K[0-9]{4}F[0-9]{3}A[0-9]{3}", F15_SPEED_ALTITUDE_ALTITUDE, F15_SB_SPEED_ALTITUDE_KFS) (* :340 *)
  ; ("K[0-9]{4}F[0-9]{3}M[0-9]{4}", F15_SPEED_ALTITUDE_ALTITUDE, F15_SB_SPEED_ALTITUDE_KFM) (* :342 *)
  ; ("K[0-9]{4}S[0-9]{4}F[0-9]{3}", F15_SPEED_ALTITUDE_ALTITUDE, F15_SB_SPEED_ALTITUDE_KSF) (* :344 *)
  ; ("K[0-9]{4}S[0-9]{4}S[0-9]{4}", F15_SPEED_ALTITUDE_ALTITUDE, F15_SB_SPEED_ALTITUDE_KSS) (* :346 *)
  ; ("K[0-9]{4}S[0-9]{4}A[0-9]{3}", F15_SPEED_ALTITUDE_ALTITUDE, F15_SB_SPEED_ALTITUDE_KSA) (* :348 *)
  ; ("K[0-9]{4}S[0-9]{4}M[0-9]{4}", F15_SPEED_ALTITUDE_ALTITUDE, F15_SB_SPEED_ALTITUDE_KSM) (* :350 *)
  ; ("K[0-9]{4}A[0-9]{3}F[0-9]{3}", F15_SPEED_ALTITUDE_ALTITUDE, F15_SB_SPEED_ALTITUDE_KAF) (* :352 *)
  ; ("K[0-9]{4}A[0-9]{3}S[0-9]{4}", F15_SPEED_ALTITUDE_ALTITUDE, F15_SB_SPEED_ALTITUDE_KAS) (* :354 *)
  ; ("K[0-9]{4}A[0-9]{3}A[0-9]{3}", F15_SPEED_ALTITUDE_ALTITUDE, F15_SB_SPEED_ALTITUDE_KAA) (* :356 *)
  ; ("K[0-9]{4}A[0-9]{3}M[0-9]{4}", F15_SPEED_ALTITUDE_ALTITUDE, F15_SB_SPEED_ALTITUDE_KAM) (* :358 *)
  ; ("K[0-9]{4}M[0-9]{4}F[0-9]{3}", F15_SPEED_ALTITUDE_ALTITUDE, F15_SB_SPEED_ALTITUDE_KMF) (* :360 *)
  ; ("K[0-9]{4}M[0-9]{4}S[0-9]{4}", F15_SPEED_ALTITUDE_ALTITUDE, F15_SB_SPEED_ALTITUDE_KMS) (* :362 *)
  ; ("K[0-9]{4}M[0-9]{4}A[0-9]{3}", F15_SPEED_ALTITUDE_ALTITUDE, F15_SB_SPEED_ALTITUDE_KMA) (* :364 *)
  ; ("K[0-9]{4}M[0-9]{4}M[0-9]{4}", F15_SPEED_ALTITUDE_ALTITUDE, F15_SB_SPEED_ALTITUDE_KMM) (* :366 *)
  ; ("M[0-9]{3}F[0-9]{3}PLUS", F15_SPEED_ALTITUDE_PLUS, F15_SB_SPEED_ALTITUDE_MF_P) (* :368 *)
  ; ("M[0-9]{3}S[0-9]{4}PLUS", F15_SPEED_ALTITUDE_PLUS, F15_SB_SPEED_ALTITUDE_MS_P) (* :369 *)
  ; ("M[0-9]{3}A[0-9]{3}PLUS", F15_SPEED_ALTITUDE_PLUS, F15_SB_SPEED_ALTITUDE_MA_P) (* :370 *)
  ; ("M[0-9]{3}M[0-9]{4}PLUS", F15_SPEED_ALTITUDE_PLUS, F15_SB_SPEED_ALTITUDE_MM_P) (* :371 *)
  ; ("N[0-9]{4}F[0-9]{3}PLUS", F15_SPEED_ALTITUDE_PLUS, F15_SB_SPEED_ALTITUDE_NF_P) (* :372 *)
  ; ("N[0-9]{4}S[0-9]{4}PLUS", F15_SPEED_ALTITUDE_PLUS, F15_SB_SPEED_ALTITUDE_NS_P) (* :373 *)
  ; ("N[0-9]{4}A[0-9]{3}PLUS", F15_SPEED_ALTITUDE_PLUS, F15_SB_SPEED_ALTITUDE_NA_P) (* :374 *)
  ; ("N[0-9]{4}M[0-9]{4}PLUS", F15_SPEED_ALTITUDE_PLUS, F15_SB_SPEED_ALTITUDE_NM_P) (* :375 *)
  ; ("K[0-9]{4}F[0-9]{3}PLUS", F15_SPEED_ALTITUDE_PLUS, F15_SB_SPEED_ALTITUDE_KF_P) (* :376 *)
  ; ("K[0-9]{4}S[0-9]{4}PLUS", F15_SPEED_ALTITUDE_PLUS, F15_SB_SPEED_ALTITUDE_KS_P) (* :377 *)
  ; ("K[0-9]{4}A[0-9]{3}PLUS", F15_SPEED_ALTITUDE_PLUS, F15_SB_SPEED_ALTITUDE_KA_P) (* :378 *)
  ; ("K[0-9]{4}M[0-9]{4}PLUS", F15_SPEED_ALTITUDE_PLUS, F15_SB_SPEED_ALTITUDE_KM_P) (* :379 *)
  ].

(** F15TokenSyntaxDescriptions.py:161 *)
Definition max_token_length : Z := 25%Z.
