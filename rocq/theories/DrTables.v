(** The steps of parse, store and extract of each class in /repo/src/parser/parser_classes, in the order of the code.
    Keys are the strings the macros of /repo/src/parser/variable_defs expand to.  The counting of relays at the start of
    the three relay classes is [next_relay] in DrModel.v.  In the struct rows an atof assigned to a field declared int
    (base_pti_parser.hpp:398-1008) is [Tr]. *)
From Verif Require Import Prelude DCModel DrModel.
Open Scope string_scope.

(** acmtblu1.hpp:316-656 parse. *)
Definition acmtblu1_parse : list (row src) :=
  [ u_ 3 "LOAD_MODEL"; d_ 11 "LOAD_TSTALL"; d_ 12 "LOAD_TRESTART"; d_ 13 "LOAD_TV"; d_ 14 "LOAD_TF";
    d_ 15 "LOAD_COMPLF"; d_ 16 "LOAD_COMPPF"; d_ 17 "LOAD_VSTALL"; d_ 18 "LOAD_RSTALL"; d_ 19 "LOAD_XSTALL";
    d_ 20 "LOAD_LFADJ"; d_ 21 "LOAD_KP1"; d_ 22 "LOAD_NP1"; d_ 23 "LOAD_KQ1"; d_ 24 "LOAD_NQ1"; d_ 25 "LOAD_KP2";
    d_ 26 "LOAD_NP2"; d_ 27 "LOAD_KQ2"; d_ 28 "LOAD_NQ2"; d_ 29 "LOAD_VBRK"; d_ 30 "LOAD_FRST"; d_ 31 "LOAD_VRST";
    d_ 32 "LOAD_CMPKPF"; d_ 33 "LOAD_CMPKQF"; d_ 34 "LOAD_VC1OFF"; d_ 35 "LOAD_VC2OFF"; d_ 36 "LOAD_VC1ON";
    d_ 37 "LOAD_VC2ON"; d_ 38 "LOAD_TTH"; d_ 39 "LOAD_TH1T"; d_ 40 "LOAD_TH2T"; d_ 41 "LOAD_FUVR";
    d_ 42 "LOAD_UVTR1"; d_ 43 "LOAD_TTR1"; d_ 44 "LOAD_UVTR1"; d_ 45 "LOAD_TTR2"; d_ 46 "LOAD_AC_PERC" ].
(** acmtblu1.hpp:664-860 store. *)
Definition acmtblu1_store : list (srow) :=
  [ SRow None "model" (Up 3); SRow (Some 2) "id" (Tag 2); sd 11 "tstall"; sd 12 "trestart"; sd 13 "tv"; sd 14 "tf";
    sd 15 "complf"; sd 16 "comppf"; sd 17 "vstall"; sd 18 "rstall"; sd 19 "xstall"; sd 20 "lfadj"; sd 21 "kp1";
    sd 22 "np1"; sd 23 "kq1"; sd 24 "nq1"; sd 25 "kp2"; sd 26 "np2"; sd 27 "kq2"; sd 28 "nq2"; sd 29 "vbrk";
    sd 30 "frst"; sd 31 "vrst"; sd 32 "cmpkpf"; sd 33 "cmpkqf"; sd 34 "vc1off"; sd 35 "vc2off"; sd 36 "vc1on";
    sd 37 "vc2on"; sd 38 "tth"; sd 39 "th1t"; sd 40 "th2t"; sd 41 "fuvr"; sd 42 "uvtr1"; sd 43 "ttr1";
    sd 44 "uvtr2"; sd 45 "ttr2"; sd 46 "load_ac_perc" ].
(** acmtblu1.hpp:42-305 extract. *)
Definition acmtblu1_extract : list (row fsrc) :=
  [ xs "model" "LOAD_MODEL"; xd "tstall" "LOAD_TSTALL"; xd "trestart" "LOAD_TRESTART"; xd "tv" "LOAD_TV";
    xd "tf" "LOAD_TF"; xd "complf" "LOAD_COMPLF"; xd "comppf" "LOAD_COMPPF"; xd "vstall" "LOAD_VSTALL";
    xd "rstall" "LOAD_RSTALL"; xd "xstall" "LOAD_XSTALL"; xd "lfadj" "LOAD_LFADJ"; xd "kp1" "LOAD_KP1";
    xd "np1" "LOAD_NP1"; xd "kq1" "LOAD_KQ1"; xd "kq1" "LOAD_NQ1"; xd "kp2" "LOAD_KP2"; xd "np2" "LOAD_NP2";
    xd "kq2" "LOAD_KQ2"; xd "kq2" "LOAD_NQ2"; xd "vbrk" "LOAD_VBRK"; xd "frst" "LOAD_FRST"; xd "vrst" "LOAD_VRST";
    xd "cmpkpf" "LOAD_CMPKPF"; xd "cmpkqf" "LOAD_CMPKQF"; xd "vc1off" "LOAD_VC1OFF"; xd "vc2off" "LOAD_VC2OFF";
    xd "vc1on" "LOAD_VC1ON"; xd "vc2on" "LOAD_VC2ON"; xd "tth" "LOAD_TTH"; xd "th1t" "LOAD_TH1T";
    xd "th2t" "LOAD_TH2T"; xd "fuvr" "LOAD_FUVR"; xd "uvtr1" "LOAD_UVTR1"; xd "ttr1" "LOAD_TTR1";
    xd "uvtr2" "LOAD_UVTR2"; xd "ttr2" "LOAD_TTR2"; xd "load_ac_perc" "LOAD_AC_PERC" ].

(** cim6bl.hpp:240-481 parse. *)
Definition cim6bl_parse : list (row src) :=
  [ u_ 1 "LOAD_MODEL"; i_ 3 "LOAD_IT"; d_ 4 "LOAD_RA"; d_ 5 "LOAD_XA"; d_ 6 "LOAD_XM"; d_ 7 "LOAD_R1";
    d_ 8 "LOAD_X1"; d_ 9 "LOAD_R2"; d_ 10 "LOAD_X2"; d_ 11 "LOAD_E1"; d_ 12 "LOAD_SE1"; d_ 13 "LOAD_E2";
    d_ 14 "LOAD_SE2"; d_ 15 "LOAD_MBASE"; d_ 16 "LOAD_PMULT"; d_ 17 "LOAD_H"; d_ 18 "LOAD_VI"; d_ 19 "LOAD_TI";
    d_ 20 "LOAD_TB"; d_ 21 "LOAD_A"; d_ 22 "LOAD_B"; d_ 23 "LOAD_D"; d_ 24 "LOAD_E"; d_ 25 "LOAD_C0";
    d_ 26 "LOAD_TNOM"; d_ 27 "LOAD_DYN_PERC" ].
(** cim6bl.hpp:489-629 store. *)
Definition cim6bl_store : list (srow) :=
  [ SRow None "model" (Up 1); SRow (Some 2) "id" (Tag 2); si 3 "it"; sd 4 "ra"; sd 5 "xa"; sd 6 "xm"; sd 7 "r1";
    sd 8 "x1"; sd 9 "r2"; sd 10 "x2"; sd 11 "e1"; sd 12 "se1"; sd 13 "e2"; sd 14 "se2"; sd 15 "mbase";
    sd 16 "pmult"; sd 17 "h"; sd 18 "vi"; sd 19 "ti"; sd 20 "tb"; sd 21 "a"; sd 22 "b"; sd 23 "d"; sd 24 "e";
    sd 25 "c0"; sd 26 "tnom"; sd 27 "dynload_perc" ].
(** cim6bl.hpp:42-229 extract. *)
Definition cim6bl_extract : list (row fsrc) :=
  [ xs "model" "LOAD_MODEL"; xi "it" "LOAD_IT"; xd "ra" "LOAD_RA"; xd "xa" "LOAD_XA"; xd "xm" "LOAD_XM";
    xd "r1" "LOAD_R1"; xd "r1" "LOAD_X1"; xd "r2" "LOAD_R2"; xd "x2" "LOAD_X2"; xd "e1" "LOAD_E1";
    xd "se1" "LOAD_SE1"; xd "se2" "LOAD_E2"; xd "se2" "LOAD_SE2"; xd "mbase" "LOAD_MBASE"; xd "pmult" "LOAD_PMULT";
    xd "h" "LOAD_H"; xd "vi" "LOAD_VI"; xd "ti" "LOAD_TI"; xd "tb" "LOAD_TB"; xd "a" "LOAD_A"; xd "b" "LOAD_B";
    xd "d" "LOAD_D"; xd "e" "LOAD_E"; xd "c0" "LOAD_C0"; xd "tnom" "LOAD_TNOM"; xd "dynload_perc" "LOAD_DYN_PERC" ].

(** cmldblu1.hpp:995-2207 parse. *)
Definition cmldblu1_parse : list (row src) :=
  [ u_ 3 "LOAD_MODEL"; i_ 5 "LOAD_IT"; d_ 11 "LOAD_MVA"; d_ 12 "LOAD_BSS"; d_ 13 "LOAD_RFDR"; d_ 14 "LOAD_XFDR";
    d_ 15 "LOAD_FB"; d_ 16 "LOAD_XXF"; d_ 17 "LOAD_TFIXHS"; d_ 18 "LOAD_TFIXLS"; d_ 19 "LOAD_LTC";
    d_ 20 "LOAD_TMIN"; d_ 21 "LOAD_TMAX"; d_ 22 "LOAD_STEP"; d_ 23 "LOAD_VMIN"; d_ 24 "LOAD_VMAX";
    d_ 25 "LOAD_TDEL"; d_ 26 "LOAD_TTAP"; d_ 27 "LOAD_RCOMP"; d_ 28 "LOAD_XCOMP"; d_ 29 "LOAD_FMA";
    d_ 30 "LOAD_FMB"; d_ 31 "LOAD_FMC"; d_ 32 "LOAD_FMD"; d_ 33 "LOAD_FEL"; d_ 34 "LOAD_PFEL"; d_ 35 "LOAD_VD1";
    d_ 36 "LOAD_VD2"; d_ 37 "LOAD_PFS"; d_ 38 "LOAD_P1E"; d_ 39 "LOAD_P1C"; d_ 40 "LOAD_P2E"; d_ 41 "LOAD_P2C";
    d_ 42 "LOAD_PFREQ"; d_ 43 "LOAD_Q1E"; d_ 44 "LOAD_Q1C"; d_ 45 "LOAD_Q2E"; d_ 46 "LOAD_Q2C"; d_ 47 "LOAD_QFREQ";
    i_ 48 "LOAD_MTPA"; d_ 49 "LOAD_LFMA"; d_ 50 "LOAD_RSA"; d_ 51 "LOAD_LSA"; d_ 52 "LOAD_LPA"; d_ 53 "LOAD_LPPA";
    d_ 54 "LOAD_TPOA"; d_ 55 "LOAD_TPPOA"; d_ 56 "LOAD_HA"; d_ 57 "LOAD_ETRQA"; d_ 58 "LOAD_VTR1A";
    d_ 59 "LOAD_TTR1A"; d_ 60 "LOAD_FTR1A"; d_ 61 "LOAD_VRC1A"; d_ 62 "LOAD_TRC1A"; d_ 63 "LOAD_VTR2A";
    d_ 64 "LOAD_TTR2A"; d_ 65 "LOAD_FTR2A"; d_ 66 "LOAD_VRC2A"; d_ 67 "LOAD_TRC2A"; i_ 68 "LOAD_MTPB";
    d_ 69 "LOAD_LFMB"; Row (Some 71) "LOAD_RSB" TDouble "LOAD_RSB" (D 70) "LOAD_RSB" (D 70);
    Row (Some 72) "LOAD_LSB" TDouble "LOAD_LSB" (D 71) "LOAD_LSB" (D 71); d_ 72 "LOAD_LPB"; d_ 73 "LOAD_LPPB";
    d_ 74 "LOAD_TPOB"; d_ 75 "LOAD_TPPOB"; d_ 76 "LOAD_HB"; d_ 77 "LOAD_ETRQB"; d_ 78 "LOAD_VTR1B";
    d_ 79 "LOAD_TTR1B"; d_ 80 "LOAD_FTR1B"; d_ 81 "LOAD_VRC1B"; d_ 82 "LOAD_TRC1B"; d_ 83 "LOAD_VTR2B";
    d_ 84 "LOAD_TTR2B"; d_ 85 "LOAD_FTR2B"; d_ 86 "LOAD_VRC2B"; d_ 87 "LOAD_TRC2B"; i_ 88 "LOAD_MTPC";
    d_ 89 "LOAD_LFMC"; d_ 90 "LOAD_RSC"; d_ 91 "LOAD_LSC"; d_ 92 "LOAD_LPC"; d_ 93 "LOAD_LPPC"; d_ 94 "LOAD_TPOC";
    d_ 95 "LOAD_TPPOC"; d_ 96 "LOAD_HC"; d_ 97 "LOAD_ETRQC"; d_ 98 "LOAD_VTR1C"; d_ 99 "LOAD_TTR1C";
    d_ 100 "LOAD_FTR1C"; d_ 101 "LOAD_VRC1C"; d_ 102 "LOAD_TRC1C"; d_ 103 "LOAD_VTR2C"; d_ 104 "LOAD_TTR2C";
    d_ 105 "LOAD_FTR2C"; d_ 106 "LOAD_VRC2C"; d_ 107 "LOAD_TRC2C"; d_ 108 "LOAD_TSTALL"; d_ 109 "LOAD_TRST";
    d_ 110 "LOAD_TV"; d_ 111 "LOAD_TF"; d_ 112 "LOAD_LFMD"; d_ 113 "LOAD_COMPPF"; d_ 114 "LOAD_VSTALL";
    d_ 115 "LOAD_RSTALL"; d_ 116 "LOAD_XSTALL"; d_ 117 "LOAD_LFADJ"; d_ 118 "LOAD_KP1"; d_ 119 "LOAD_NP1";
    d_ 120 "LOAD_KQ1"; d_ 121 "LOAD_NQ1"; d_ 122 "LOAD_KP2"; d_ 123 "LOAD_NP2"; d_ 124 "LOAD_KQ2";
    d_ 125 "LOAD_NQ2"; d_ 126 "LOAD_VBRK"; d_ 127 "LOAD_FRST"; d_ 128 "LOAD_VRST"; d_ 129 "LOAD_CMPKPF";
    d_ 130 "LOAD_CMPKQF"; d_ 131 "LOAD_VC1OFF"; d_ 132 "LOAD_VC2OFF"; d_ 133 "LOAD_VC1ON"; d_ 134 "LOAD_VC2ON";
    d_ 135 "LOAD_TTH"; d_ 136 "LOAD_TH1T"; d_ 137 "LOAD_TH2T"; d_ 138 "LOAD_FUVR"; d_ 139 "LOAD_UVTR1";
    d_ 140 "LOAD_TTR1"; d_ 141 "LOAD_UVTR2"; d_ 142 "LOAD_TTR2" ].
(** cmldblu1.hpp:2215-2895 store. *)
Definition cmldblu1_store : list (srow) :=
  [ SRow None "model" (Up 3); SRow (Some 2) "id" (Tag 2); si 5 "it"; sd 11 "mva"; sd 12 "bss"; sd 13 "rfdr";
    sd 14 "xfdr"; sd 15 "fb"; sd 16 "xxf"; sd 17 "tfixhs"; sd 18 "tfixls"; sd 19 "ltc"; sd 20 "tmin"; sd 21 "tmax";
    sd 22 "step"; sd 23 "vmin"; sd 24 "vmax"; sd 25 "tdel"; sd 26 "ttap"; sd 27 "rcomp"; sd 28 "xcomp";
    sd 29 "fma"; sd 30 "fmb"; sd 31 "fmc"; sd 32 "fmd"; sd 33 "fel"; sd 34 "pfel"; sd 35 "vd1"; sd 36 "vd2";
    sd 37 "pfs"; sd 38 "p1e"; sd 39 "p1c"; sd 40 "p2e"; sd 41 "p2c"; sd 42 "pfreq"; sd 43 "q1e"; sd 44 "q1c";
    sd 45 "q2e"; sd 46 "q2c"; sd 47 "qfreq"; si 48 "mtpa"; sd 49 "lfma"; sd 50 "rsa"; sd 51 "lsa"; sd 52 "lpa";
    sd 53 "lppa"; sd 54 "tpoa"; sd 55 "tppoa"; sd 56 "ha"; sd 57 "etrqa"; sd 58 "vtr1a"; sd 59 "ttr1a";
    sd 60 "ftr1a"; sd 61 "vrc1a"; sd 62 "trc1a"; sd 63 "vtr2a"; sd 64 "ttr2a"; sd 65 "ftr2a"; sd 66 "vrc2a";
    sd 67 "trc2a"; si 68 "mtpb"; sd 69 "lfmb"; sd 70 "rsb"; sd 71 "lsb"; sd 72 "lpb"; sd 73 "lppb"; sd 74 "tpob";
    sd 75 "tppob"; sd 76 "hb"; sd 77 "etrqb"; sd 78 "vtr1b"; sd 79 "ttr1b"; sd 80 "ftr1b"; sd 81 "vrc1b";
    sd 82 "trc1b"; sd 83 "vtr2b"; sd 84 "ttr2b"; sd 85 "ftr2b"; sd 86 "vrc2b"; sd 87 "trc2b"; si 88 "mtpc";
    sd 89 "lfmc"; sd 90 "rsc"; sd 91 "lsc"; sd 92 "lpc"; sd 93 "lppc"; sd 94 "tpoc"; sd 95 "tppoc"; sd 96 "hc";
    sd 97 "etrqc"; sd 98 "vtr1c"; sd 99 "ttr1c"; sd 100 "ftr1c"; sd 101 "vrc1c"; sd 102 "trc1c"; sd 103 "vtr2c";
    sd 104 "ttr2c"; sd 105 "ftr2c"; sd 106 "vrc2c"; sd 107 "trc2c"; sd 108 "tstall"; sd 109 "trst"; sd 110 "tv";
    sd 111 "tf"; sd 112 "lfmd"; sd 113 "comppf"; sd 114 "vstall"; sd 115 "rstall"; sd 116 "xstall"; sd 117 "lfadj";
    sd 118 "kp1"; sd 119 "np1"; sd 120 "kq1"; sd 121 "nq1"; sd 122 "kp2"; sd 123 "np2"; sd 124 "kq2"; sd 125 "nq2";
    sd 126 "vbrk"; sd 127 "frst"; sd 128 "vrst"; sd 129 "cmpkpf"; sd 130 "cmpkqf"; sd 131 "vc1off";
    sd 132 "vc2off"; sd 133 "vc1on"; sd 134 "vc2on"; sd 135 "tth"; sd 136 "th1t"; sd 137 "th2t"; sd 138 "fuvr";
    sd 139 "uvtr1"; sd 140 "ttr1"; sd 141 "uvtr2"; sd 142 "ttr2" ].
(** cmldblu1.hpp:42-984 extract. *)
Definition cmldblu1_extract : list (row fsrc) :=
  [ xs "model" "LOAD_MODEL"; xi "it" "LOAD_IT"; xd "mva" "LOAD_MVA"; xd "bss" "LOAD_BSS"; xd "rfdr" "LOAD_RFDR";
    xd "xfdr" "LOAD_XFDR"; xd "fb" "LOAD_FB"; xd "xxf" "LOAD_XXF"; xd "tfixhs" "LOAD_TFIXHS";
    xd "tfixls" "LOAD_TFIXLS"; xd "ltc" "LOAD_LTC"; xd "tmin" "LOAD_TMIN"; xd "tmax" "LOAD_TMAX";
    xd "step" "LOAD_STEP"; xd "vmin" "LOAD_VMIN"; xd "vmax" "LOAD_VMAX"; xd "tdel" "LOAD_TDEL";
    xd "ttap" "LOAD_TTAP"; xd "rcomp" "LOAD_RCOMP"; xd "xcomp" "LOAD_XCOMP"; xd "fma" "LOAD_FMA";
    xd "fmb" "LOAD_FMB"; xd "fmc" "LOAD_FMC"; xd "fmd" "LOAD_FMD"; xd "fel" "LOAD_FEL"; xd "pfel" "LOAD_PFEL";
    xd "vd1" "LOAD_VD1"; xd "vd2" "LOAD_VD2"; xd "pfs" "LOAD_PFS"; xd "p1e" "LOAD_P1E"; xd "p1c" "LOAD_P1C";
    xd "p2e" "LOAD_P2E"; xd "p2c" "LOAD_P2C"; xd "pfreq" "LOAD_PFREQ"; xd "q1e" "LOAD_Q1E"; xd "q1c" "LOAD_Q1C";
    xd "q2e" "LOAD_Q2E"; xd "q2c" "LOAD_Q2C"; xd "qfreq" "LOAD_QFREQ"; xi "mtpa" "LOAD_MTPA";
    xd "lfma" "LOAD_LFMA"; xd "rsa" "LOAD_RSA"; xd "lsa" "LOAD_LSA"; xd "lpa" "LOAD_LPA"; xd "lppa" "LOAD_LPPA";
    xd "tpoa" "LOAD_TPOA"; xd "tppoa" "LOAD_TPPOA"; xd "ha" "LOAD_HA"; xd "etrqa" "LOAD_ETRQA";
    xd "vtr1a" "LOAD_VTR1A"; xd "ttr1a" "LOAD_TTR1A"; xd "ftr1a" "LOAD_FTR1A"; xd "vrc1a" "LOAD_VRC1A";
    xd "trc1a" "LOAD_TRC1A"; xd "vtr2a" "LOAD_VTR2A"; xd "ttr2a" "LOAD_TTR2A"; xd "ftr2a" "LOAD_FTR2A";
    xd "vrc2a" "LOAD_VRC2A"; xd "trc2a" "LOAD_TRC2A"; xi "mtpb" "LOAD_MTPB"; xd "lfmb" "LOAD_LFMB";
    xd "rsb" "LOAD_RSB"; xd "lsb" "LOAD_LSB"; xd "lpb" "LOAD_LPB"; xd "lppb" "LOAD_LPPB"; xd "tpob" "LOAD_TPOB";
    xd "tppob" "LOAD_TPPOB"; xd "hb" "LOAD_HB"; xd "etrqb" "LOAD_ETRQB"; xd "vtr1b" "LOAD_VTR1B";
    xd "ttr1b" "LOAD_TTR1B"; xd "ftr1b" "LOAD_FTR1B"; xd "vrc1b" "LOAD_VRC1B"; xd "trc1b" "LOAD_TRC1B";
    xd "vtr2b" "LOAD_VTR2B"; xd "ttr2b" "LOAD_TTR2B"; xd "ftr2b" "LOAD_FTR2B"; xd "vrc2b" "LOAD_VRC2B";
    xd "trc2b" "LOAD_TRC2B"; xi "mtpc" "LOAD_MTPC"; xd "lfmc" "LOAD_LFMC"; xd "rsc" "LOAD_RSC";
    xd "lsc" "LOAD_LSC"; xd "lpc" "LOAD_LPC"; xd "lppc" "LOAD_LPPC"; xd "tpoc" "LOAD_TPOC";
    xd "tppoc" "LOAD_TPPOC"; xd "hc" "LOAD_HC"; xd "etrqc" "LOAD_ETRQC"; xd "vtr1c" "LOAD_VTR1C";
    xd "ttr1c" "LOAD_TTR1C"; xd "ftr1c" "LOAD_FTR1C"; xd "vrc1c" "LOAD_VRC1C"; xd "trc1c" "LOAD_TRC1C";
    xd "vtr2c" "LOAD_VTR2C"; xd "ttr2c" "LOAD_TTR2C"; xd "ftr2c" "LOAD_FTR2C"; xd "vrc2c" "LOAD_VRC2C";
    xd "trc2c" "LOAD_TRC2C"; xd "tstall" "LOAD_TSTALL"; xd "trst" "LOAD_TRST"; xd "tv" "LOAD_TV";
    xd "tf" "LOAD_TF"; xd "lfmd" "LOAD_LFMD"; xd "comppf" "LOAD_COMPPF"; xd "vstall" "LOAD_VSTALL";
    xd "rstall" "LOAD_RSTALL"; xd "xstall" "LOAD_XSTALL"; xd "lfadj" "LOAD_LFADJ"; xd "kp1" "LOAD_KP1";
    xd "np1" "LOAD_NP1"; xd "kq1" "LOAD_KQ1"; xd "nq1" "LOAD_NQ1"; xd "kp2" "LOAD_KP2"; xd "np2" "LOAD_NP2";
    xd "kq2" "LOAD_KQ2"; xd "nq2" "LOAD_NQ2"; xd "vbrk" "LOAD_VBRK"; xd "frst" "LOAD_FRST"; xd "vrst" "LOAD_VRST";
    xd "cmpkpf" "LOAD_CMPKPF"; xd "cmpkqf" "LOAD_CMPKQF"; xd "vc1off" "LOAD_VC1OFF"; xd "vc2off" "LOAD_VC2OFF";
    xd "vc1on" "LOAD_VC1ON"; xd "vc2on" "LOAD_VC2ON"; xd "tth" "LOAD_TTH"; xd "th1t" "LOAD_TH1T";
    xd "th2t" "LOAD_TH2T"; xd "fuvr" "LOAD_FUVR"; xd "uvtr1" "LOAD_UVTR1"; xd "ttr2" "LOAD_TTR1";
    Row None "LOAD_UVTR2" TDouble "LOAD_UVTR2" (Fld "uvtr2") "LOAD_VC2ON" (Fld "uvtr2"); xd "ttr2" "LOAD_TTR2" ].

(** distr1.hpp:331-692 parse. *)
Definition distr1_parse : list (row src) :=
  [ u_ 1 "RELAY_MODEL"; t_ 3 "RELAY_ID"; i_ 4 "RELAY_RS"; i_ 5 "RELAY_MTYPE"; i_ 6 "RELAY_BMON";
    i_ 7 "RELAY_IBUS1"; i_ 8 "RELAY_JBUS1"; t_ 9 "RELAY_ID1"; i_ 10 "RELAY_IBUS2"; i_ 11 "RELAY_JBUS2";
    t_ 12 "RELAY_ID2"; i_ 13 "RELAY_IBUS3"; i_ 14 "RELAY_JBUS3"; t_ 15 "RELAY_ID3"; d_ 16 "RELAY_ZONE1_TIME";
    d_ 17 "RELAY_ZONE1_REACH"; d_ 18 "RELAY_ZONE1_CENANG"; d_ 19 "RELAY_ZONE1_CENDIS"; d_ 20 "RELAY_ZONE2_TIME";
    d_ 21 "RELAY_ZONE2_REACH"; d_ 22 "RELAY_ZONE2_CENANG"; d_ 23 "RELAY_ZONE2_CENDIS"; d_ 24 "RELAY_ZONE3_TIME";
    d_ 25 "RELAY_ZONE3_REACH"; d_ 26 "RELAY_ZONE3_CENANG"; d_ 27 "RELAY_ZONE3_CENDIS"; d_ 28 "RELAY_DIRANG";
    d_ 29 "RELAY_THCUR"; d_ 30 "RELAY_SEBTIME"; d_ 31 "RELAY_SERCTIME"; d_ 32 "RELAY_TRBTIME";
    d_ 33 "RELAY_TRRCTIME"; i_ 34 "RELAY_BLTYPE1"; d_ 35 "RELAY_BLINT1"; d_ 36 "RELAY_BLRO1";
    i_ 37 "RELAY_BLTYPE2"; d_ 38 "RELAY_BLINT2"; d_ 39 "RELAY_BLRO2" ].
(** distr1.hpp:700-905 store. *)
Definition distr1_store : list (srow) :=
  [ SRow None "from_bus" (I 0); SRow None "to_bus" (I 2); SRow None "model" (Up 1); SRow (Some 3) "id" (Tag 3);
    si 4 "rs"; si 5 "mtype"; si 6 "bmon"; si 7 "ibus1"; si 8 "jbus1"; SRow (Some 9) "id1" (Tag 9); si 10 "ibus2";
    si 11 "jbus2"; SRow (Some 12) "id2" (Tag 12); si 13 "ibus3"; si 14 "jbus3"; SRow (Some 15) "id3" (Tag 15);
    sd 16 "zone1_time"; sd 17 "zone1_reach"; sd 18 "zone1_cenang"; sd 19 "zone1_cendis"; sd 20 "zone2_time";
    sd 21 "zone2_reach"; sd 22 "zone2_cenang"; sd 23 "zone2_cendis"; sd 24 "zone3_time"; sd 25 "zone3_reach";
    sd 26 "zone3_cenang"; sd 27 "zone3_cendis"; sd 28 "dirang"; sd 29 "thcur"; sd 30 "sebtime"; sd 31 "serctime";
    sd 32 "trbtime"; sd 33 "trrctime"; si 34 "bltype1"; sd 35 "blint1"; sd 36 "blro1"; si 37 "bltype2";
    sd 38 "blint2"; sd 39 "blro2" ].
(** distr1.hpp:42-320 extract. *)
Definition distr1_extract : list (row fsrc) :=
  [ xs "model" "RELAY_MODEL"; xs "id" "RELAY_ID"; xi "rs" "RELAY_RS"; xi "mtype" "RELAY_MTYPE";
    xi "bmon" "RELAY_BMON"; xi "ibus1" "RELAY_IBUS1"; xi "jbus1" "RELAY_JBUS1"; xs "id1" "RELAY_ID1";
    xi "ibus2" "RELAY_IBUS2"; xi "jbus2" "RELAY_JBUS2"; xs "id2" "RELAY_ID2"; xi "ibus3" "RELAY_IBUS3";
    xi "jbus3" "RELAY_JBUS3"; xs "id3" "RELAY_ID3"; xd "zone1_time" "RELAY_ZONE1_TIME";
    xd "zone1_reach" "RELAY_ZONE1_REACH"; xd "zone1_cenang" "RELAY_ZONE1_CENANG";
    xd "zone1_cendis" "RELAY_ZONE1_CENDIS"; xd "zone2_time" "RELAY_ZONE2_TIME";
    xd "zone2_reach" "RELAY_ZONE2_REACH"; xd "zone2_cenang" "RELAY_ZONE2_CENANG";
    xd "zone2_cendis" "RELAY_ZONE2_CENDIS"; xd "zone2_time" "RELAY_ZONE3_TIME";
    xd "zone3_reach" "RELAY_ZONE3_REACH"; xd "zone3_cenang" "RELAY_ZONE3_CENANG";
    xd "zone3_cendis" "RELAY_ZONE3_CENDIS"; xd "dirang" "RELAY_DIRANG"; xd "thcur" "RELAY_THCUR";
    xd "sebtime" "RELAY_SEBTIME"; xd "serctime" "RELAY_SERCTIME"; xd "trbtime" "RELAY_TRBTIME";
    xd "trrctime" "RELAY_TRRCTIME"; xi "bltype1" "RELAY_BLTYPE1"; xd "blint1" "RELAY_BLINT1";
    xd "blro1" "RELAY_BLRO1"; xi "bltype2" "RELAY_BLTYPE2"; xd "blint2" "RELAY_BLINT2"; xd "blro2" "RELAY_BLRO2" ].

(** esst1a.hpp:210-451 parse. *)
Definition esst1a_parse : list (row src) :=
  [ b_ "HAS_EXCITER"; u_ 1 "EXCITER_MODEL"; d_ 3 "EXCITER_UEL"; d_ 4 "EXCITER_VOS"; d_ 5 "EXCITER_TR";
    d_ 6 "EXCITER_VIMAX"; d_ 7 "EXCITER_VIMIN"; d_ 8 "EXCITER_TC"; d_ 9 "EXCITER_TB"; d_ 10 "EXCITER_TC1";
    d_ 11 "EXCITER_TB1"; d_ 12 "EXCITER_KA"; d_ 13 "EXCITER_TA"; d_ 14 "EXCITER_VAMAX"; d_ 15 "EXCITER_VAMIN";
    d_ 16 "EXCITER_VRMAX"; d_ 17 "EXCITER_VRMIN"; d_ 18 "EXCITER_KC"; d_ 19 "EXCITER_KF"; d_ 20 "EXCITER_TF";
    d_ 21 "EXCITER_KLR"; d_ 22 "EXCITER_ILR" ].
(** esst1a.hpp:459-578 store. *)
Definition esst1a_store : list (srow) :=
  [ SRow None "bus_id" (I 0); SRow None "gen_id" (Tag 2); SRow None "model" (Up 1); sd 3 "uel"; sd 4 "vos";
    sd 5 "ex_tr"; sd 6 "vimax"; sd 7 "vimin"; sd 8 "ex_tc"; sd 9 "ex_tb"; sd 10 "tc1"; sd 11 "tb1"; sd 12 "ex_ka";
    sd 13 "ex_ta"; sd 14 "vamax"; sd 15 "vamin"; sd 16 "vrmax"; sd 17 "vrmin"; sd 18 "ex_kc"; sd 19 "ex_kf";
    sd 20 "ex_tf"; sd 21 "klr"; sd 22 "ilr" ].
(** esst1a.hpp:42-199 extract. *)
Definition esst1a_extract : list (row fsrc) :=
  [ xb "HAS_EXCITER"; xs "model" "EXCITER_MODEL"; xd "uel" "EXCITER_UEL"; xd "vos" "EXCITER_VOS";
    xd "ex_tr" "EXCITER_TR"; xd "vimax" "EXCITER_VIMAX"; xd "vimin" "EXCITER_VIMIN"; xd "ex_tc" "EXCITER_TC";
    xd "ex_tb" "EXCITER_TB"; xd "tc1" "EXCITER_TC1"; xd "tb1" "EXCITER_TB1"; xd "ex_ka" "EXCITER_KA";
    xd "ex_ta" "EXCITER_TA"; xd "vamax" "EXCITER_VAMAX"; xd "vamin" "EXCITER_VAMIN"; xd "vrmax" "EXCITER_VRMAX";
    xd "vrmin" "EXCITER_VRMIN"; xd "ex_kc" "EXCITER_KC"; xd "ex_kf" "EXCITER_KF"; xd "ex_tf" "EXCITER_TF";
    xd "klr" "EXCITER_KLR"; xd "ilr" "EXCITER_ILR" ].

(** esst4b.hpp:188-396 parse. *)
Definition esst4b_parse : list (row src) :=
  [ b_ "HAS_EXCITER"; u_ 1 "EXCITER_MODEL"; d_ 3 "EXCITER_TR"; d_ 4 "EXCITER_KPR"; d_ 5 "EXCITER_KIR";
    d_ 6 "EXCITER_VRMAX"; d_ 7 "EXCITER_VRMIN"; d_ 8 "EXCITER_TA"; d_ 9 "EXCITER_KPM"; d_ 10 "EXCITER_KIM";
    d_ 11 "EXCITER_VMMAX"; d_ 12 "EXCITER_VMMIN"; d_ 13 "EXCITER_KG"; d_ 14 "EXCITER_KP"; d_ 15 "EXCITER_KI";
    d_ 16 "EXCITER_VBMAX"; d_ 17 "EXCITER_KC"; d_ 18 "EXCITER_XL"; d_ 19 "EXCITER_THETAP" ].
(** esst4b.hpp:404-508 store. *)
Definition esst4b_store : list (srow) :=
  [ SRow None "bus_id" (I 0); SRow None "gen_id" (Tag 2); SRow None "model" (Up 1); sd 3 "ex_tr"; sd 4 "kpr";
    sd 5 "kir"; sd 6 "vrmax"; sd 7 "vrmin"; sd 8 "ex_ta"; sd 9 "kpm"; sd 10 "kim"; sd 11 "vmmax"; sd 12 "vmmin";
    sd 13 "ex_kg"; sd 14 "ex_kp"; sd 15 "ex_ki"; sd 16 "vbmax"; sd 17 "ex_kc"; sd 18 "ex_xl"; sd 19 "thetap" ].
(** esst4b.hpp:42-178 extract. *)
Definition esst4b_extract : list (row fsrc) :=
  [ xb "HAS_EXCITER"; xs "model" "EXCITER_MODEL"; xd "ex_tr" "EXCITER_TR"; xd "kpr" "EXCITER_KPR";
    xd "kir" "EXCITER_KIR"; xd "vrmax" "EXCITER_VRMAX"; xd "vrmin" "EXCITER_VRMIN"; xd "ex_ta" "EXCITER_TA";
    xd "kpm" "EXCITER_KPM"; xd "kim" "EXCITER_KIM"; xd "vmmax" "EXCITER_VMMAX"; xd "vmmin" "EXCITER_VMMIN";
    xd "ex_kg" "EXCITER_KG"; xd "ex_kp" "EXCITER_KP"; xd "ex_ki" "EXCITER_KI"; xd "vbmax" "EXCITER_VBMAX";
    xd "ex_kc" "EXCITER_KC"; xd "ex_xl" "EXCITER_XL"; xd "thetap" "EXCITER_THETAP" ].

(** exdc1.hpp:181-378 parse. *)
Definition exdc1_parse : list (row src) :=
  [ b_ "HAS_EXCITER"; u_ 1 "EXCITER_MODEL"; d_ 3 "EXCITER_TR"; d_ 4 "EXCITER_KA"; d_ 5 "EXCITER_TA";
    d_ 6 "EXCITER_TB"; d_ 7 "EXCITER_TC"; d_ 8 "EXCITER_VRMAX"; d_ 9 "EXCITER_VRMIN"; d_ 10 "EXCITER_KE";
    d_ 11 "EXCITER_TE"; d_ 12 "EXCITER_KF"; d_ 13 "EXCITER_TF1"; d_ 14 "EXCITER_SWITCH"; d_ 15 "EXCITER_E1";
    d_ 16 "EXCITER_SE1"; d_ 17 "EXCITER_E2"; d_ 18 "EXCITER_SE2" ].
(** exdc1.hpp:386-487 store. *)
Definition exdc1_store : list (srow) :=
  [ SRow None "bus_id" (I 0); SRow None "gen_id" (Tag 2); SRow None "model" (Up 1); sd 3 "ex_tr"; sd 4 "ex_ka";
    sd 5 "ex_ta"; sd 6 "ex_tb"; sd 7 "ex_tc"; sd 8 "vrmax"; sd 9 "vrmin"; sd 10 "ex_ke"; sd 11 "ex_te";
    sd 12 "ex_kf"; sd 13 "tf1"; sd 14 "rswitch"; sd 15 "ex_e1"; sd 16 "se1"; sd 17 "ex_e2"; sd 18 "se2" ].
(** exdc1.hpp:42-171 extract. *)
Definition exdc1_extract : list (row fsrc) :=
  [ xb "HAS_EXCITER"; xs "model" "EXCITER_MODEL"; xd "ex_tr" "EXCITER_TR"; xd "ex_ka" "EXCITER_KA";
    xd "ex_ta" "EXCITER_TA"; xd "ex_tb" "EXCITER_TB"; xd "ex_tc" "EXCITER_TC"; xd "vrmax" "EXCITER_VRMAX";
    xd "vrmin" "EXCITER_VRMIN"; xd "ex_ke" "EXCITER_KE"; xd "ex_te" "EXCITER_TE"; xd "ex_kf" "EXCITER_KF";
    xd "tf1" "EXCITER_TF1"; xd "rswitch" "EXCITER_SWITCH"; xd "ex_e1" "EXCITER_E1"; xd "se1" "EXCITER_SE1";
    xd "ex_e2" "EXCITER_E2"; xd "se2" "EXCITER_SE2" ].

(** frqtpat.hpp:122-210 parse. *)
Definition frqtpat_parse : list (row src) :=
  [ u_ 1 "RELAY_MODEL"; t_ 4 "RELAY_GENID"; Row (Some 1) "RELAY_MINS" TInt "RELAY_MINS" (I 0) "RELAY_MINS" (I 0);
    i_ 2 "RELAY_FREBUS"; d_ 5 "RELAY_FL"; d_ 6 "RELAY_FU"; d_ 7 "RELAY_TP"; d_ 8 "RELAY_TB" ].
(** frqtpat.hpp:218-268 store. *)
Definition frqtpat_store : list (srow) :=
  [ SRow None "bus_id" (I 3); SRow None "model" (Up 1); SRow (Some 4) "tag" (Tag 4); SRow (Some 1) "mins" (I 0);
    si 2 "frebus"; sd 5 "fl"; sd 6 "fu"; sd 7 "tp"; sd 8 "tb" ].
(** frqtpat.hpp:42-111 extract. *)
Definition frqtpat_extract : list (row fsrc) :=
  [ xs "model" "RELAY_MODEL"; xs "tag" "RELAY_GENID"; xi "mins" "RELAY_MINS"; xi "frebus" "RELAY_FREBUS";
    xd "fl" "RELAY_FL"; xd "fu" "RELAY_FU"; xd "tp" "RELAY_TP"; xd "tb" "RELAY_TB" ].

(** gast.hpp:132-234 parse. *)
Definition gast_parse : list (row src) :=
  [ b_ "HAS_GOVERNOR"; u_ 1 "GOVERNOR_MODEL"; d_ 3 "GOVERNOR_R"; d_ 4 "GOVERNOR_T1"; d_ 5 "GOVERNOR_T2";
    d_ 6 "GOVERNOR_T3"; d_ 7 "GOVERNOR_AT"; d_ 8 "GOVERNOR_KT"; d_ 9 "GOVERNOR_VMAX"; d_ 10 "GOVERNOR_VMIN";
    d_ 11 "GOVERNOR_DT" ].
(** gast.hpp:242-305 store. *)
Definition gast_store : list (srow) :=
  [ SRow None "bus_id" (I 0); SRow None "gen_id" (Tag 2); SRow None "model" (Up 1); sd 3 "gv_r"; sd 4 "gv_t1";
    sd 5 "gv_t2"; sd 6 "gv_t3"; sd 7 "gv_at"; sd 8 "gv_kt"; sd 9 "vmax"; sd 10 "vmin"; sd 11 "gv_dt" ].
(** gast.hpp:42-122 extract. *)
Definition gast_extract : list (row fsrc) :=
  [ xb "HAS_GOVERNOR"; xs "model" "GOVERNOR_MODEL"; xd "gv_r" "GOVERNOR_R"; xd "gv_t1" "GOVERNOR_T1";
    xd "gv_t2" "GOVERNOR_T2"; xd "gv_t3" "GOVERNOR_T3"; xd "gv_at" "GOVERNOR_AT"; xd "gv_kt" "GOVERNOR_KT";
    xd "vmax" "GOVERNOR_VMAX"; xd "vmin" "GOVERNOR_VMIN"; xd "gv_dt" "GOVERNOR_DT" ].

(** gdform.hpp:197-385 parse. *)
Definition gdform_parse : list (row src) :=
  [ u_ 1 "GENERATOR_MODEL"; d_ 3 "GENERATOR_MQ"; d_ 4 "GENERATOR_KPV"; d_ 5 "GENERATOR_KIV";
    Row (Some 6) "GENERATOR_MP" TDouble "GENERATOR_MP" (D 6) "GENERATOR_MP" (D 10); d_ 7 "GENERATOR_KPPMAX";
    d_ 8 "GENERATOR_KIPMAX"; d_ 9 "GENERATOR_PMAX"; d_ 10 "GENERATOR_PMIN"; d_ 11 "GENERATOR_EMAX";
    d_ 12 "GENERATOR_EMIN"; d_ 13 "GENERATOR_TPF"; d_ 14 "GENERATOR_IMAX"; d_ 15 "GENERATOR_QMAX";
    d_ 16 "GENERATOR_QMIN"; d_ 17 "GENERATOR_KPQMAX"; d_ 18 "GENERATOR_KIQMAX"; d_ 19 "GENERATOR_TQF";
    d_ 20 "GENERATOR_TVF";
    Row (Some 21) "GENERATOR_VFLAG" TDouble "GENERATOR_VFLAG" (I 21) "GENERATOR_VFLAG" (I 21) ].
(** gdform.hpp:393-509 store. *)
Definition gdform_store : list (srow) :=
  [ SRow None "bus_id" (I 0); SRow None "gen_id" (Tag 2); SRow None "model" (Up 1); sd 3 "mq"; sd 4 "kpv";
    sd 5 "kiv"; sd 6 "mp"; sd 7 "kppmax"; sd 8 "kipmax"; sd 9 "pmax"; sd 10 "pmin"; sd 11 "emax"; sd 12 "emin";
    sd 13 "tpf"; sd 14 "imax"; sd 15 "qmax"; sd 16 "qmin"; sd 17 "kpqmax"; sd 18 "kiqmax"; sd 19 "tqf";
    sd 20 "tvf"; si 21 "vflag" ].
(** gdform.hpp:42-187 extract. *)
Definition gdform_extract : list (row fsrc) :=
  [ xs "model" "GENERATOR_MODEL"; xd "mq" "GENERATOR_MQ"; xd "kpv" "GENERATOR_KPV"; xd "kiv" "GENERATOR_KIV";
    xd "mp" "GENERATOR_MP"; xd "kppmax" "GENERATOR_KPPMAX"; xd "kipmax" "GENERATOR_KIPMAX";
    xd "pmax" "GENERATOR_PMAX"; xd "pmin" "GENERATOR_PMIN"; xd "emax" "GENERATOR_EMAX"; xd "emin" "GENERATOR_EMIN";
    xd "tpf" "GENERATOR_TPF"; xd "imax" "GENERATOR_IMAX"; xd "qmax" "GENERATOR_QMAX"; xd "qmin" "GENERATOR_QMIN";
    xd "kpqmax" "GENERATOR_KPQMAX"; xd "kiqmax" "GENERATOR_KIQMAX"; xd "tqf" "GENERATOR_TQF";
    xd "tvf" "GENERATOR_TVF"; xi "vflag" "GENERATOR_VFLAG" ].

(** gencls.hpp:88-133 parse. *)
Definition gencls_parse : list (row src) :=
  [ u_ 1 "GENERATOR_MODEL"; d_ 3 "GENERATOR_INERTIA_CONSTANT_H"; d_ 4 "GENERATOR_DAMPING_COEFFICENT_0";
    d_ 5 "GENERATOR_TRANSIENT_REACTANCE" ].
(** gencls.hpp:141-175 store. *)
Definition gencls_store : list (srow) :=
  [ SRow None "bus_id" (I 0); SRow None "gen_id" (Tag 2); SRow None "model" (Up 1); sd 3 "inertia"; sd 4 "damping";
    sd 5 "reactance" ].
(** gencls.hpp:42-78 extract. *)
Definition gencls_extract : list (row fsrc) :=
  [ xs "model" "GENERATOR_MODEL"; xd "inertia" "GENERATOR_INERTIA_CONSTANT_H";
    xd "damping" "GENERATOR_DAMPING_COEFFICENT_0"; xd "reactance" "GENERATOR_TRANSIENT_REACTANCE" ].

(** genrou.hpp:183-350 parse. *)
Definition genrou_parse : list (row src) :=
  [ u_ 1 "GENERATOR_MODEL"; d_ 3 "GENERATOR_TDOP"; d_ 4 "GENERATOR_TDOPP"; d_ 5 "GENERATOR_TQOP";
    d_ 6 "GENERATOR_TQOPP"; d_ 7 "GENERATOR_INERTIA_CONSTANT_H"; d_ 8 "GENERATOR_DAMPING_COEFFICENT_0";
    d_ 9 "GENERATOR_XD"; Row (Some 10) "GENERATOR_XQ" TDouble "GENERATOR_XQ" (D 10) "GENERATOR_XQ" (D 9);
    d_ 11 "GENERATOR_XDP"; d_ 12 "GENERATOR_XQP"; d_ 13 "GENERATOR_XDPP"; d_ 14 "GENERATOR_XL";
    d_ 15 "GENERATOR_S1"; d_ 16 "GENERATOR_S12" ].
(** genrou.hpp:358-447 store. *)
Definition genrou_store : list (srow) :=
  [ SRow None "bus_id" (I 0); SRow None "gen_id" (Tag 2); SRow None "model" (Up 1); sd 3 "tdop"; sd 4 "tdopp";
    sd 5 "tqop"; sd 6 "tqopp"; sd 7 "inertia"; sd 8 "damping"; sd 9 "gn_xd"; sd 10 "gn_xq"; sd 11 "xdp";
    sd 12 "xqp"; sd 13 "xdpp"; sd 14 "gn_xl"; sd 15 "gn_s1"; sd 16 "s12" ].
(** genrou.hpp:42-173 extract. *)
Definition genrou_extract : list (row fsrc) :=
  [ xs "model" "GENERATOR_MODEL"; xd "tdop" "GENERATOR_TDOP"; xd "tdopp" "GENERATOR_TDOPP";
    xd "tqopp" "GENERATOR_TQOP"; xd "tqopp" "GENERATOR_TQOPP"; xd "inertia" "GENERATOR_INERTIA_CONSTANT_H";
    xd "damping" "GENERATOR_DAMPING_COEFFICENT_0"; xd "gn_xd" "GENERATOR_XD"; xd "gn_xq" "GENERATOR_XQ";
    xd "xdp" "GENERATOR_XDP"; xd "xqp" "GENERATOR_XQP"; xd "xdpp" "GENERATOR_XDPP"; xd "gn_xl" "GENERATOR_XL";
    xd "gn_s1" "GENERATOR_S1"; xd "s12" "GENERATOR_S12"; xd "tqop" "GENERATOR_TQOP"; xd "xqp" "GENERATOR_XQP" ].

(** gensal.hpp:152-297 parse. *)
Definition gensal_parse : list (row src) :=
  [ u_ 1 "GENERATOR_MODEL"; d_ 3 "GENERATOR_TDOP"; d_ 4 "GENERATOR_TDOPP"; d_ 5 "GENERATOR_TQOPP";
    d_ 6 "GENERATOR_INERTIA_CONSTANT_H"; d_ 7 "GENERATOR_DAMPING_COEFFICENT_0"; d_ 8 "GENERATOR_XD";
    d_ 9 "GENERATOR_XQ"; d_ 10 "GENERATOR_XDP"; d_ 11 "GENERATOR_XDPP"; d_ 12 "GENERATOR_XL"; d_ 13 "GENERATOR_S1";
    d_ 14 "GENERATOR_S12" ].
(** gensal.hpp:305-384 store. *)
Definition gensal_store : list (srow) :=
  [ SRow None "bus_id" (I 0); SRow None "gen_id" (Tag 2); SRow None "model" (Up 1); sd 3 "tdop"; sd 4 "tdopp";
    sd 5 "tqopp"; sd 6 "inertia"; sd 7 "damping"; sd 8 "gn_xd"; sd 9 "gn_xq"; sd 10 "xdp"; sd 11 "xdpp";
    sd 12 "gn_xl"; sd 13 "gn_s1"; sd 14 "s12" ].
(** gensal.hpp:42-142 extract. *)
Definition gensal_extract : list (row fsrc) :=
  [ xs "model" "GENERATOR_MODEL"; xd "tdop" "GENERATOR_TDOP"; xd "tdopp" "GENERATOR_TDOPP";
    xd "tqopp" "GENERATOR_TQOPP"; xd "inertia" "GENERATOR_INERTIA_CONSTANT_H";
    xd "damping" "GENERATOR_DAMPING_COEFFICENT_0"; xd "gn_xd" "GENERATOR_XD"; xd "gn_xq" "GENERATOR_XQ";
    xd "xdp" "GENERATOR_XDP"; xd "xdpp" "GENERATOR_XDPP"; xd "gn_xl" "GENERATOR_XL"; xd "gn_s1" "GENERATOR_S1";
    xd "s12" "GENERATOR_S12" ].

(** ggov1.hpp:314-720 parse. *)
Definition ggov1_parse : list (row src) :=
  [ b_ "HAS_GOVERNOR"; u_ 1 "GOVERNOR_MODEL"; d_ 3 "GOVERNOR_RSELECT"; d_ 4 "GOVERNOR_FLAGSWITCH";
    d_ 5 "GOVERNOR_R"; d_ 6 "GOVERNOR_TPELEC"; d_ 7 "GOVERNOR_MAXERR"; d_ 8 "GOVERNOR_MINERR";
    d_ 9 "GOVERNOR_KPGOV"; d_ 10 "GOVERNOR_KIGOV"; d_ 11 "GOVERNOR_KDGOV"; d_ 12 "GOVERNOR_TDGOV";
    d_ 13 "GOVERNOR_VMAX"; d_ 14 "GOVERNOR_VMIN"; d_ 15 "GOVERNOR_TACT"; d_ 16 "GOVERNOR_KTURB";
    d_ 17 "GOVERNOR_WFNL"; d_ 18 "GOVERNOR_TB"; d_ 19 "GOVERNOR_TC"; d_ 20 "GOVERNOR_TENG";
    d_ 21 "GOVERNOR_TFLOAD"; d_ 22 "GOVERNOR_KPLOAD"; d_ 23 "GOVERNOR_KILOAD"; d_ 24 "GOVERNOR_LDREF";
    d_ 25 "GOVERNOR_DM"; d_ 26 "GOVERNOR_ROPEN"; d_ 27 "GOVERNOR_RCLOSE"; d_ 28 "GOVERNOR_KIMW";
    d_ 29 "GOVERNOR_ASET"; d_ 30 "GOVERNOR_KA"; d_ 31 "GOVERNOR_TA"; d_ 32 "GOVERNOR_TRATE"; d_ 33 "GOVERNOR_DB";
    d_ 34 "GOVERNOR_TSA"; d_ 35 "GOVERNOR_TSB"; d_ 36 "GOVERNOR_RUP"; d_ 37 "GOVERNOR_RDOWN" ].
(** ggov1.hpp:728-921 store. *)
Definition ggov1_store : list (srow) :=
  [ SRow None "bus_id" (I 0); SRow None "gen_id" (Tag 2); SRow None "model" (Up 1); sd 3 "rselect";
    sd 4 "flagswitch"; sd 5 "gv_r"; sd 6 "tpelec"; sd 7 "maxerr"; sd 8 "minerr"; sd 9 "kpgov"; sd 10 "kigov";
    sd 11 "kdgov"; sd 12 "tdgov"; sd 13 "vmax"; sd 14 "vmin"; sd 15 "tact"; sd 16 "kturb"; sd 17 "wfnl";
    sd 18 "gv_tb"; sd 19 "gv_tc"; sd 20 "teng"; sd 21 "tfload"; sd 22 "kpload"; sd 23 "kiload"; sd 24 "ldref";
    sd 25 "gv_dm"; sd 26 "ropen"; sd 27 "rclose"; sd 28 "kimw"; sd 29 "aset"; sd 30 "gv_ka"; sd 31 "gv_ta";
    sd 32 "trate"; sd 33 "gv_db"; sd 34 "tsa"; sd 35 "tsb"; sd 36 "rup"; sd 37 "rdown" ].
(** ggov1.hpp:42-304 extract. *)
Definition ggov1_extract : list (row fsrc) :=
  [ xb "HAS_GOVERNOR"; xs "model" "GOVERNOR_MODEL"; xd "rselect" "GOVERNOR_RSELECT";
    xd "flagswitch" "GOVERNOR_FLAGSWITCH"; xd "gv_r" "GOVERNOR_R"; xd "tpelec" "GOVERNOR_TPELEC";
    xd "maxerr" "GOVERNOR_MAXERR"; xd "minerr" "GOVERNOR_MINERR"; xd "kpgov" "GOVERNOR_KPGOV";
    xd "kigov" "GOVERNOR_KIGOV"; xd "kdgov" "GOVERNOR_KDGOV"; xd "tdgov" "GOVERNOR_TDGOV";
    xd "vmax" "GOVERNOR_VMAX"; xd "vmin" "GOVERNOR_VMIN"; xd "tact" "GOVERNOR_TACT"; xd "kturb" "GOVERNOR_KTURB";
    xd "wfnl" "GOVERNOR_WFNL"; xd "gv_tb" "GOVERNOR_TB"; xd "gv_tc" "GOVERNOR_TC"; xd "teng" "GOVERNOR_TENG";
    xd "tfload" "GOVERNOR_TFLOAD"; xd "kpload" "GOVERNOR_KPLOAD"; xd "kiload" "GOVERNOR_KILOAD";
    xd "ldref" "GOVERNOR_LDREF"; xd "gv_dm" "GOVERNOR_DM"; xd "ropen" "GOVERNOR_ROPEN";
    xd "rclose" "GOVERNOR_RCLOSE"; xd "kimw" "GOVERNOR_KIMW"; xd "aset" "GOVERNOR_ASET"; xd "gv_ka" "GOVERNOR_KA";
    xd "gv_ta" "GOVERNOR_TA"; xd "trate" "GOVERNOR_TRATE"; xd "gv_db" "GOVERNOR_DB"; xd "tsa" "GOVERNOR_TSA";
    xd "tsb" "GOVERNOR_TSB"; xd "rup" "GOVERNOR_RUP"; xd "rdown" "GOVERNOR_RDOWN" ].

(** hygov.hpp:155-284 parse. *)
Definition hygov_parse : list (row src) :=
  [ b_ "HAS_GOVERNOR"; u_ 1 "GOVERNOR_MODEL"; d_ 3 "GOVERNOR_R"; d_ 4 "GOVERNOR_r"; d_ 5 "GOVERNOR_TR";
    d_ 6 "GOVERNOR_TF"; d_ 7 "GOVERNOR_TG"; d_ 8 "GOVERNOR_VELM"; d_ 9 "GOVERNOR_GMAX"; d_ 10 "GOVERNOR_GMIN";
    d_ 11 "GOVERNOR_TW"; d_ 12 "GOVERNOR_AT"; d_ 13 "GOVERNOR_DT"; d_ 14 "GOVERNOR_QNL" ].
(** hygov.hpp:292-370 store. *)
Definition hygov_store : list (srow) :=
  [ SRow None "bus_id" (I 0); SRow None "gen_id" (Tag 2); SRow None "model" (Up 1); sd 3 "gv_r"; sd 4 "gv_r2";
    sd 5 "gv_tr"; sd 6 "gv_tf"; sd 7 "gv_tg"; sd 8 "gv_velm"; sd 9 "gv_gmax"; sd 10 "gv_gmin"; sd 11 "gv_tw";
    sd 12 "gv_at"; sd 13 "gv_dt"; sd 14 "gv_qnl" ].
(** hygov.hpp:42-145 extract. *)
Definition hygov_extract : list (row fsrc) :=
  [ xb "HAS_GOVERNOR"; xs "model" "GOVERNOR_MODEL"; xd "gv_r" "GOVERNOR_R"; xd "gv_r2" "GOVERNOR_r";
    xd "gv_tr" "GOVERNOR_TR"; xd "gv_tf" "GOVERNOR_TF"; xd "gv_tg" "GOVERNOR_TG"; xd "gv_velm" "GOVERNOR_VELM";
    xd "gv_gmax" "GOVERNOR_GMAX"; xd "gv_gmin" "GOVERNOR_GMIN"; xd "gv_tw" "GOVERNOR_TW"; xd "gv_at" "GOVERNOR_AT";
    xd "gv_dt" "GOVERNOR_DT"; xd "gv_qnl" "GOVERNOR_QNL" ].

(** ieeet1.hpp:167-342 parse. *)
Definition ieeet1_parse : list (row src) :=
  [ b_ "HAS_EXCITER"; u_ 1 "EXCITER_MODEL"; d_ 3 "EXCITER_TR"; d_ 4 "EXCITER_KA"; d_ 5 "EXCITER_TA";
    d_ 6 "EXCITER_VRMAX"; d_ 7 "EXCITER_VRMIN"; d_ 8 "EXCITER_KE"; d_ 9 "EXCITER_TE"; d_ 10 "EXCITER_KF";
    d_ 11 "EXCITER_TF1"; d_ 12 "EXCITER_SWITCH"; d_ 13 "EXCITER_E1"; d_ 14 "EXCITER_SE1"; d_ 15 "EXCITER_E2";
    d_ 16 "EXCITER_SE2" ].
(** ieeet1.hpp:350-441 store. *)
Definition ieeet1_store : list (srow) :=
  [ SRow None "bus_id" (I 0); SRow None "gen_id" (Tag 2); SRow None "model" (Up 1); sd 3 "ex_tr"; sd 4 "ex_ka";
    sd 5 "ex_ta"; sd 6 "vrmax"; sd 7 "vrmin"; sd 8 "ex_ke"; sd 9 "ex_te"; sd 10 "ex_kf"; sd 11 "tf1";
    sd 12 "rswitch"; sd 13 "ex_e1"; sd 14 "se1"; sd 15 "ex_e2"; sd 16 "se2" ].
(** ieeet1.hpp:42-157 extract. *)
Definition ieeet1_extract : list (row fsrc) :=
  [ xb "HAS_EXCITER"; xs "model" "EXCITER_MODEL"; xd "ex_tr" "EXCITER_TR"; xd "ex_ka" "EXCITER_KA";
    xd "ex_ta" "EXCITER_TA"; xd "vrmax" "EXCITER_VRMAX"; xd "vrmin" "EXCITER_VRMIN"; xd "ex_ke" "EXCITER_KE";
    xd "ex_te" "EXCITER_TE"; xd "ex_kf" "EXCITER_KF"; xd "tf1" "EXCITER_TF1"; xd "rswitch" "EXCITER_SWITCH";
    xd "ex_e1" "EXCITER_E1"; xd "se1" "EXCITER_SE1"; xd "ex_e2" "EXCITER_E2"; xd "se2" "EXCITER_SE2" ].

(** ieelbl.hpp:162-303 parse. *)
Definition ieelbl_parse : list (row src) :=
  [ u_ 1 "LOAD_MODEL"; Row (Some 3) "LOAD_A1" TInt "LOAD_A1" (D 3) "LOAD_A1" (D 3); d_ 4 "LOAD_A2"; d_ 5 "LOAD_A3";
    d_ 6 "LOAD_A4"; d_ 7 "LOAD_A5"; d_ 8 "LOAD_A6"; d_ 9 "LOAD_A7"; d_ 10 "LOAD_A8"; d_ 11 "LOAD_N1";
    d_ 12 "LOAD_N2"; d_ 13 "LOAD_N3"; d_ 14 "LOAD_N4"; d_ 15 "LOAD_N5"; d_ 16 "LOAD_N6" ].
(** ieelbl.hpp:311-395 store. *)
Definition ieelbl_store : list (srow) :=
  [ SRow None "model" (Up 1); SRow (Some 2) "id" (Tag 2); sd 3 "a1"; sd 4 "a2"; sd 5 "a3"; sd 6 "a4"; sd 7 "a5";
    sd 8 "a6"; sd 9 "a7"; sd 10 "a8"; sd 11 "n1"; sd 12 "n2"; sd 13 "n3"; sd 14 "n4"; sd 15 "n5"; sd 16 "n6" ].
(** ieelbl.hpp:42-151 extract. *)
Definition ieelbl_extract : list (row fsrc) :=
  [ xs "model" "LOAD_MODEL"; xd "a1" "LOAD_A1"; xd "a2" "LOAD_A2"; xd "a3" "LOAD_A3"; xd "a4" "LOAD_A4";
    xd "a5" "LOAD_A5"; xd "a6" "LOAD_A6"; xd "a7" "LOAD_A7"; xd "a8" "LOAD_A8"; xd "n1" "LOAD_N1";
    xd "n2" "LOAD_N2"; xd "n3" "LOAD_N3"; xd "n4" "LOAD_N4"; xd "n5" "LOAD_N5"; xd "n6" "LOAD_N6" ].

(** lvshbl.hpp:157-290 parse. *)
Definition lvshbl_parse : list (row src) :=
  [ u_ 1 "RELAY_MODEL"; t_ 2 "RELAY_LID"; i_ 3 "RELAY_JBUS"; d_ 4 "RELAY_V1"; d_ 5 "RELAY_T1"; d_ 6 "RELAY_F1";
    d_ 7 "RELAY_V2"; d_ 8 "RELAY_T2"; d_ 9 "RELAY_F2"; d_ 10 "RELAY_V3"; d_ 11 "RELAY_T3"; d_ 12 "RELAY_F3";
    d_ 13 "RELAY_TB" ].
(** lvshbl.hpp:298-373 store. *)
Definition lvshbl_store : list (srow) :=
  [ SRow None "bus_id" (I 0); SRow None "model" (Up 1); SRow (Some 2) "tag" (Tag 2); si 3 "jbus"; sd 4 "v1";
    sd 5 "t1"; sd 6 "f1"; sd 7 "v2"; sd 8 "t2"; sd 9 "f2"; sd 10 "v3"; sd 11 "t3"; sd 12 "f3"; sd 13 "tb" ].
(** lvshbl.hpp:42-146 extract. *)
Definition lvshbl_extract : list (row fsrc) :=
  [ xs "model" "RELAY_MODEL"; xs "tag" "RELAY_LID"; xi "jbus" "RELAY_JBUS"; xd "v1" "RELAY_V1"; xd "t1" "RELAY_T1";
    xd "f1" "RELAY_F1"; xd "v2" "RELAY_V2"; xd "t2" "RELAY_T2"; xd "f2" "RELAY_F2"; xd "v3" "RELAY_V3";
    xd "t3" "RELAY_T3"; xd "f3" "RELAY_F3"; xd "tb" "RELAY_TB" ].

(** psssim.hpp:177-364 parse. *)
Definition psssim_parse : list (row src) :=
  [ b_ "HAS_PSS"; u_ 1 "PSS_MODEL";
    Row (Some 3) "PSSSIM_INPUTTYPE" TInt "PSSSIM_INPUTTYPE" (D 3) "PSSSIM_INPUTTYPE" (D 3);
    Row (Some 4) "PSSSIM_BUS1" TInt "PSSSIM_BUS1" (D 4) "PSSSIM_BUS1" (D 4);
    Row (Some 5) "PSSSIM_BUS2" TInt "PSSSIM_BUS2" (D 5) "PSSSIM_BUS2" (D 5);
    Row (Some 6) "PSSSIM_BUS3" TInt "PSSSIM_BUS3" (D 6) "PSSSIM_BUS3" (D 6);
    Row (Some 7) "PSSSIM_BUS4" TInt "PSSSIM_BUS4" (D 7) "PSSSIM_BUS4" (D 7);
    Row (Some 8) "PSSSIM_BUS5" TInt "PSSSIM_BUS5" (D 8) "PSSSIM_BUS5" (D 8);
    Row (Some 9) "PSSSIM_BUS6" TInt "PSSSIM_BUS6" (D 9) "PSSSIM_BUS6" (D 9); d_ 10 "PSSSIM_GAINK";
    d_ 11 "PSSSIM_TW"; d_ 12 "PSSSIM_T1"; d_ 13 "PSSSIM_T2"; d_ 14 "PSSSIM_T3"; d_ 15 "PSSSIM_T4";
    d_ 16 "PSSSIM_MAXOUT"; d_ 17 "PSSSIM_MINOUT" ].
(** psssim.hpp:372-467 store. *)
Definition psssim_store : list (srow) :=
  [ SRow None "bus_id" (I 0); SRow None "gen_id" (Tag 2); SRow None "model" (Up 1);
    SRow (Some 3) "psssim_inputtype" (Tr 3); SRow (Some 4) "psssim_bus1" (Tr 4);
    SRow (Some 5) "psssim_bus2" (Tr 5); SRow (Some 6) "psssim_bus3" (Tr 6); SRow (Some 7) "psssim_bus4" (Tr 7);
    SRow (Some 8) "psssim_bus5" (Tr 8); SRow (Some 9) "psssim_bus6" (Tr 9); sd 10 "psssim_gaink";
    sd 11 "psssim_tw"; sd 12 "psssim_t1"; sd 13 "psssim_t2"; sd 14 "psssim_t3"; sd 15 "psssim_t4";
    sd 16 "psssim_maxout"; sd 17 "psssim_minout" ].
(** psssim.hpp:42-167 extract. *)
Definition psssim_extract : list (row fsrc) :=
  [ xb "HAS_PSS"; xs "model" "PSS_MODEL"; xi "psssim_inputtype" "PSSSIM_INPUTTYPE"; xi "psssim_bus1" "PSSSIM_BUS1";
    xi "psssim_bus2" "PSSSIM_BUS2"; xi "psssim_bus3" "PSSSIM_BUS3"; xi "psssim_bus4" "PSSSIM_BUS4";
    xi "psssim_bus5" "PSSSIM_BUS5"; xi "psssim_bus6" "PSSSIM_BUS6"; xd "psssim_gaink" "PSSSIM_GAINK";
    xd "psssim_tw" "PSSSIM_TW"; xd "psssim_t1" "PSSSIM_T1"; xd "psssim_t2" "PSSSIM_T2"; xd "psssim_t3" "PSSSIM_T3";
    xd "psssim_t4" "PSSSIM_T4"; xd "psssim_maxout" "PSSSIM_MAXOUT"; xd "psssim_minout" "PSSSIM_MINOUT" ].

(** reeca1.hpp:382-827 parse. *)
Definition reeca1_parse : list (row src) :=
  [ b_ "HAS_EXCITER"; u_ 1 "EXCITER_MODEL"; i_ 3 "GENERATOR_REECA_IREG"; i_ 4 "GENERATOR_REECA_PFFLAG";
    i_ 5 "GENERATOR_REECA_VFLAG"; i_ 6 "GENERATOR_REECA_QFLAG"; i_ 7 "GENERATOR_REECA_PFLAG";
    i_ 8 "GENERATOR_REECA_PQFLAG"; d_ 9 "GENERATOR_REECA_VDIP"; d_ 10 "GENERATOR_REECA_VUP";
    d_ 11 "GENERATOR_REECA_TRV"; d_ 12 "GENERATOR_REECA_DBD1"; d_ 13 "GENERATOR_REECA_DBD2";
    d_ 14 "GENERATOR_REECA_KQV"; d_ 15 "GENERATOR_REECA_IQH1"; d_ 16 "GENERATOR_REECA_IQL1";
    d_ 17 "GENERATOR_REECA_VREF0"; d_ 18 "GENERATOR_REECA_IQFRZ"; d_ 19 "GENERATOR_REECA_THLD";
    d_ 20 "GENERATOR_REECA_THLD2"; d_ 21 "GENERATOR_REECA_TP"; d_ 22 "GENERATOR_REECA_QMAX";
    d_ 23 "GENERATOR_REECA_QMIN"; d_ 24 "GENERATOR_REECA_VMAX"; d_ 25 "GENERATOR_REECA_VMIN";
    d_ 26 "GENERATOR_REECA_KQP"; d_ 27 "GENERATOR_REECA_KQI"; d_ 28 "GENERATOR_REECA_KVP";
    d_ 29 "GENERATOR_REECA_KVI"; d_ 30 "GENERATOR_REECA_VBIAS";
    Row (Some 31) "GENERATOR_REECA_TIQ" TDouble "GENERATOR_REECA_TIQ" (D 31) "GENERATOR_REECA_TIQ" (D 32);
    d_ 32 "GENERATOR_REECA_DPMAX"; d_ 33 "GENERATOR_REECA_DPMIN"; d_ 34 "GENERATOR_REECA_PMAX";
    d_ 35 "GENERATOR_REECA_PMIN"; d_ 36 "GENERATOR_REECA_IMAX"; d_ 37 "GENERATOR_REECA_TPORD";
    d_ 38 "GENERATOR_REECA_VQ1"; d_ 39 "GENERATOR_REECA_IQ1"; d_ 40 "GENERATOR_REECA_VQ2";
    d_ 41 "GENERATOR_REECA_IQ2"; d_ 42 "GENERATOR_REECA_VQ3"; d_ 43 "GENERATOR_REECA_IQ3";
    d_ 44 "GENERATOR_REECA_VQ4"; d_ 45 "GENERATOR_REECA_IQ4"; d_ 46 "GENERATOR_REECA_VP1";
    d_ 47 "GENERATOR_REECA_IP1"; d_ 48 "GENERATOR_REECA_VP2"; d_ 49 "GENERATOR_REECA_IP2";
    d_ 50 "GENERATOR_REECA_VP3"; d_ 51 "GENERATOR_REECA_IP3"; d_ 52 "GENERATOR_REECA_VP4";
    d_ 53 "GENERATOR_REECA_IP4" ].
(** reeca1.hpp:835-1073 store. *)
Definition reeca1_store : list (srow) :=
  [ SRow None "bus_id" (I 0); SRow None "gen_id" (Tag 2); SRow None "model" (Up 1); si 3 "reeca1_ireg";
    si 4 "reeca1_pfflag"; si 5 "reeca1_vflag"; si 6 "reeca1_qflag"; si 7 "reeca1_pflag"; si 8 "reeca1_pqflag";
    sd 9 "reeca1_vdip"; sd 10 "reeca1_vup"; sd 11 "reeca1_trv"; sd 12 "reeca1_dbd1"; sd 13 "reeca1_dbd2";
    sd 14 "reeca1_kqv"; sd 15 "reeca1_lqh1"; sd 16 "reeca1_lql1"; sd 17 "reeca1_vref0"; sd 18 "reeca1_lqfrz";
    sd 19 "reeca1_thld"; sd 20 "reeca1_thld2"; sd 21 "reeca1_tp"; sd 22 "reeca1_qmax"; sd 23 "reeca1_qmin";
    sd 24 "reeca1_vmax"; sd 25 "reeca1_vmin"; sd 26 "reeca1_kqp"; sd 27 "reeca1_kqi"; sd 28 "reeca1_kvp";
    sd 29 "reeca1_kvi"; sd 30 "reeca1_vbias"; sd 31 "reeca1_tiq"; sd 32 "reeca1_dpmax"; sd 33 "reeca1_dpmin";
    sd 34 "reeca1_pmax"; sd 35 "reeca1_pmin"; sd 36 "reeca1_imax"; sd 37 "reeca1_tpord"; sd 38 "reeca1_vq1";
    sd 39 "reeca1_iq1"; sd 40 "reeca1_vq2"; sd 41 "reeca1_iq2"; sd 42 "reeca1_vq3"; sd 43 "reeca1_iq3";
    sd 44 "reeca1_vq4"; sd 45 "reeca1_iq4"; sd 46 "reeca1_vp1"; sd 47 "reeca1_ip1"; sd 48 "reeca1_vp2";
    sd 49 "reeca1_ip2"; sd 50 "reeca1_vp3"; sd 51 "reeca1_ip3"; sd 52 "reeca1_vp4"; sd 53 "reeca1_ip4" ].
(** reeca1.hpp:42-372 extract. *)
Definition reeca1_extract : list (row fsrc) :=
  [ xb "HAS_EXCITER"; xs "model" "EXCITER_MODEL"; xi "reeca1_ireg" "GENERATOR_REECA_IREG";
    xi "reeca1_pfflag" "GENERATOR_REECA_PFFLAG"; xi "reeca1_vflag" "GENERATOR_REECA_VFLAG";
    xi "reeca1_qflag" "GENERATOR_REECA_QFLAG"; xi "reeca1_pflag" "GENERATOR_REECA_PFLAG";
    xi "reeca1_pqflag" "GENERATOR_REECA_PQFLAG"; xd "reeca1_vdip" "GENERATOR_REECA_VDIP";
    xd "reeca1_vup" "GENERATOR_REECA_VUP"; xd "reeca1_trv" "GENERATOR_REECA_TRV";
    xd "reeca1_dbd1" "GENERATOR_REECA_DBD1"; xd "reeca1_dbd2" "GENERATOR_REECA_DBD2";
    xd "reeca1_kqv" "GENERATOR_REECA_KQV"; xd "reeca1_lqh1" "GENERATOR_REECA_IQH1";
    xd "reeca1_lql1" "GENERATOR_REECA_IQL1"; xd "reeca1_vref0" "GENERATOR_REECA_VREF0";
    xd "reeca1_lqfrz" "GENERATOR_REECA_IQFRZ"; xd "reeca1_thld" "GENERATOR_REECA_THLD";
    xd "reeca1_thld2" "GENERATOR_REECA_THLD2"; xd "reeca1_tp" "GENERATOR_REECA_TP";
    xd "reeca1_qmax" "GENERATOR_REECA_QMAX"; xd "reeca1_qmin" "GENERATOR_REECA_QMIN";
    xd "reeca1_vmax" "GENERATOR_REECA_VMAX"; xd "reeca1_vmin" "GENERATOR_REECA_VMIN";
    xd "reeca1_kqp" "GENERATOR_REECA_KQP"; xd "reeca1_kqi" "GENERATOR_REECA_KQI";
    xd "reeca1_kvp" "GENERATOR_REECA_KVP"; xd "reeca1_kvi" "GENERATOR_REECA_KVI";
    xd "reeca1_vbias" "GENERATOR_REECA_VBIAS"; xd "reeca1_tiq" "GENERATOR_REECA_TIQ";
    xd "reeca1_dpmax" "GENERATOR_REECA_DPMAX"; xd "reeca1_dpmin" "GENERATOR_REECA_DPMIN";
    xd "reeca1_pmax" "GENERATOR_REECA_PMAX"; xd "reeca1_pmin" "GENERATOR_REECA_PMIN";
    xd "reeca1_imax" "GENERATOR_REECA_IMAX"; xd "reeca1_tpord" "GENERATOR_REECA_TPORD";
    xd "reeca1_vq1" "GENERATOR_REECA_VQ1"; xd "reeca1_iq1" "GENERATOR_REECA_IQ1";
    xd "reeca1_vq2" "GENERATOR_REECA_VQ2"; xd "reeca1_iq2" "GENERATOR_REECA_IQ2";
    xd "reeca1_vq3" "GENERATOR_REECA_VQ3"; xd "reeca1_iq3" "GENERATOR_REECA_IQ3";
    xd "reeca1_vq4" "GENERATOR_REECA_VQ4"; xd "reeca1_iq4" "GENERATOR_REECA_IQ4";
    xd "reeca1_vp1" "GENERATOR_REECA_VP1"; xd "reeca1_ip1" "GENERATOR_REECA_IP1";
    xd "reeca1_vp2" "GENERATOR_REECA_VP2"; xd "reeca1_ip2" "GENERATOR_REECA_IP2";
    xd "reeca1_vp3" "GENERATOR_REECA_VP3"; xd "reeca1_ip3" "GENERATOR_REECA_IP3";
    xd "reeca1_vp4" "GENERATOR_REECA_VP4"; xd "reeca1_ip4" "GENERATOR_REECA_IP4" ].

(** regca1.hpp:154-302 parse. *)
Definition regca1_parse : list (row src) :=
  [ u_ 1 "GENERATOR_MODEL"; i_ 3 "GENERATOR_REGC_LVPLSW"; d_ 4 "GENERATOR_REGC_TG"; d_ 5 "GENERATOR_REGC_RRPWR";
    d_ 6 "GENERATOR_REGC_BRKPT"; d_ 7 "GENERATOR_REGC_ZEROX"; d_ 8 "GENERATOR_REGC_LVPL1";
    d_ 9 "GENERATOR_REGC_VOLIM"; d_ 10 "GENERATOR_REGC_LVPNT1"; d_ 11 "GENERATOR_REGC_LVPNT0";
    d_ 12 "GENERATOR_REGC_LOLIM"; d_ 13 "GENERATOR_REGC_TFLTR"; d_ 14 "GENERATOR_REGC_KHV";
    d_ 15 "GENERATOR_REGC_IQRMAX"; d_ 16 "GENERATOR_REGC_IQRMIN"; d_ 17 "GENERATOR_REGC_ACCEL" ].
(** regca1.hpp:310-401 store. *)
Definition regca1_store : list (srow) :=
  [ SRow None "bus_id" (I 0); SRow None "gen_id" (Tag 2); SRow None "model" (Up 1); si 3 "regc_lvplsw";
    sd 4 "regc_tg"; sd 5 "regc_rrpwr"; sd 6 "regc_brkpt"; sd 7 "regc_zerox"; sd 8 "regc_lvpl1"; sd 9 "regc_volim";
    sd 10 "regc_lvpnt1"; sd 11 "regc_lvpnt0"; sd 12 "regc_lolim"; sd 13 "regc_tfltr"; sd 14 "regc_khv";
    sd 15 "regc_iqrmax"; sd 16 "regc_iqrmin"; sd 17 "regc_accel" ].
(** regca1.hpp:42-144 extract. *)
Definition regca1_extract : list (row fsrc) :=
  [ xs "model" "GENERATOR_MODEL"; xi "regc_lvplsw" "GENERATOR_REGC_LVPLSW"; xd "regc_tg" "GENERATOR_REGC_TG";
    xd "regc_rrpwr" "GENERATOR_REGC_RRPWR"; xd "regc_brkpt" "GENERATOR_REGC_BRKPT";
    xd "regc_zerox" "GENERATOR_REGC_ZEROX"; xd "regc_lvpl1" "GENERATOR_REGC_LVPL1";
    xd "regc_volim" "GENERATOR_REGC_VOLIM"; xd "regc_lvpnt1" "GENERATOR_REGC_LVPNT1";
    xd "regc_lvpnt0" "GENERATOR_REGC_LVPNT0"; xd "regc_lolim" "GENERATOR_REGC_LOLIM";
    xd "regc_tfltr" "GENERATOR_REGC_TFLTR"; xd "regc_khv" "GENERATOR_REGC_KHV";
    xd "regc_iqrmax" "GENERATOR_REGC_IQRMAX"; xd "regc_iqrmin" "GENERATOR_REGC_IQRMIN";
    xd "regc_accel" "GENERATOR_REGC_ACCEL" ].

(** regcb1.hpp:117-205 parse. *)
Definition regcb1_parse : list (row src) :=
  [ u_ 1 "GENERATOR_MODEL"; i_ 3 "GENERATOR_REGC_RATEFLAG"; i_ 4 "GENERATOR_REGC_PQFLAG"; d_ 5 "GENERATOR_REGC_TG";
    d_ 6 "GENERATOR_REGC_TFLTR"; d_ 7 "GENERATOR_REGC_IQRMAX"; d_ 8 "GENERATOR_REGC_IQRMIN";
    d_ 9 "GENERATOR_REGC_RRPWR"; d_ 10 "GENERATOR_REGC_TE"; d_ 11 "GENERATOR_REGC_IMAX" ].
(** regcb1.hpp:213-269 store. *)
Definition regcb1_store : list (srow) :=
  [ SRow None "bus_id" (I 0); SRow None "gen_id" (Tag 2); SRow None "model" (Up 1); si 3 "regc_rateflag";
    si 4 "regc_pqflag"; sd 5 "regc_tg"; sd 6 "regc_tfltr"; sd 7 "regc_iqrmax"; sd 8 "regc_iqrmin";
    sd 9 "regc_rrpwr"; sd 10 "regc_te"; sd 11 "regc_imax" ].
(** regcb1.hpp:42-107 extract. *)
Definition regcb1_extract : list (row fsrc) :=
  [ xs "model" "GENERATOR_MODEL"; xi "regc_rateflag" "GENERATOR_REGC_RATEFLAG";
    xi "regc_pqflag" "GENERATOR_REGC_PQFLAG"; xd "regc_tg" "GENERATOR_REGC_TG";
    xd "regc_tfltr" "GENERATOR_REGC_TFLTR"; xd "regc_iqrmax" "GENERATOR_REGC_IQRMAX";
    xd "regc_iqrmin" "GENERATOR_REGC_IQRMIN"; xd "regc_rrpwr" "GENERATOR_REGC_RRPWR";
    xd "regc_te" "GENERATOR_REGC_TE"; xd "regc_imax" "GENERATOR_REGC_IMAX" ].

(** regcc1.hpp:158-295 parse. *)
Definition regcc1_parse : list (row src) :=
  [ u_ 1 "GENERATOR_MODEL"; i_ 3 "GENERATOR_REGC_RATEFLAG"; i_ 4 "GENERATOR_REGC_PQFLAG"; d_ 5 "GENERATOR_REGC_TG";
    d_ 6 "GENERATOR_REGC_TFLTR"; d_ 7 "GENERATOR_REGC_IQRMAX"; d_ 8 "GENERATOR_REGC_IQRMIN";
    d_ 9 "GENERATOR_REGC_RRPWR"; d_ 10 "GENERATOR_REGC_TE"; d_ 11 "GENERATOR_REGC_IMAX";
    d_ 12 "GENERATOR_REGC_KIP"; d_ 13 "GENERATOR_REGC_KII"; d_ 14 "GENERATOR_REGC_KPPLL";
    d_ 15 "GENERATOR_REGC_KIPLL"; d_ 16 "GENERATOR_REGC_WMAX"; d_ 17 "GENERATOR_REGC_WMIN" ].
(** regcc1.hpp:303-383 store. *)
Definition regcc1_store : list (srow) :=
  [ SRow None "bus_id" (I 0); SRow None "gen_id" (Tag 2); SRow None "model" (Up 1); si 3 "regc_rateflag";
    si 4 "regc_pqflag"; sd 5 "regc_tg"; sd 6 "regc_tfltr"; sd 7 "regc_iqrmax"; sd 8 "regc_iqrmin";
    sd 9 "regc_rrpwr"; sd 10 "regc_te"; sd 11 "regc_imax"; sd 12 "regc_kip"; sd 13 "regc_kii"; sd 14 "regc_kppll";
    sd 15 "regc_kipll"; sd 16 "regc_wmax"; sd 17 "regc_wmin" ].
(** regcc1.hpp:42-148 extract. *)
Definition regcc1_extract : list (row fsrc) :=
  [ xs "model" "GENERATOR_MODEL"; xi "regc_rateflag" "GENERATOR_REGC_RATEFLAG";
    xi "regc_pqflag" "GENERATOR_REGC_PQFLAG"; xd "regc_tg" "GENERATOR_REGC_TG";
    xd "regc_tfltr" "GENERATOR_REGC_TFLTR"; xd "regc_iqrmax" "GENERATOR_REGC_IQRMAX";
    xd "regc_iqrmin" "GENERATOR_REGC_IQRMIN"; xd "regc_rrpwr" "GENERATOR_REGC_RRPWR";
    xd "regc_te" "GENERATOR_REGC_TE"; xd "regc_imax" "GENERATOR_REGC_IMAX"; xd "regc_kip" "GENERATOR_REGC_KIP";
    xd "regc_kii" "GENERATOR_REGC_KII"; xd "regc_kppll" "GENERATOR_REGC_KPPLL";
    xd "regc_kipll" "GENERATOR_REGC_KIPLL"; xd "regc_kppll" "GENERATOR_REGC_KPPLL";
    xd "regc_wmax" "GENERATOR_REGC_WMAX"; xd "regc_wmin" "GENERATOR_REGC_WMIN" ].

(** repca1.hpp:279-598 parse. *)
Definition repca1_parse : list (row src) :=
  [ b_ "HAS_PLANT_CONTROLLER"; u_ 1 "PLANT_CONTROLLER_MODEL"; i_ 3 "GENERATOR_REPCA_IREG";
    i_ 4 "GENERATOR_REPCA_BRCH_BUS_FROM"; i_ 5 "GENERATOR_REPCA_BRCH_BUS_TO";
    Row (Some 6) "GENERATOR_REPCA_BRCH_CKT" TString "GENERATOR_REPCA_BRCH_CKT" (Up 6) "GENERATOR_REPCA_BRCH_CKT" (Up 6);
    i_ 7 "GENERATOR_REPCA_VC_FLAG"; i_ 8 "GENERATOR_REPCA_REF_FLAG"; i_ 9 "GENERATOR_REPCA_F_FLAG";
    d_ 10 "GENERATOR_REPCA_TFLTR"; d_ 11 "GENERATOR_REPCA_KP"; d_ 12 "GENERATOR_REPCA_KI";
    d_ 13 "GENERATOR_REPCA_TFT"; d_ 14 "GENERATOR_REPCA_TFV"; d_ 15 "GENERATOR_REPCA_VFRZ";
    d_ 16 "GENERATOR_REPCA_RC"; d_ 17 "GENERATOR_REPCA_XC"; d_ 18 "GENERATOR_REPCA_KC";
    d_ 19 "GENERATOR_REPCA_EMAX"; d_ 20 "GENERATOR_REPCA_EMIN"; d_ 21 "GENERATOR_REPCA_DBD1";
    d_ 22 "GENERATOR_REPCA_DBD2"; d_ 23 "GENERATOR_REPCA_QMAX"; d_ 24 "GENERATOR_REPCA_QMIN";
    d_ 25 "GENERATOR_REPCA_KPG"; d_ 26 "GENERATOR_REPCA_KIG"; d_ 27 "GENERATOR_REPCA_TP";
    d_ 28 "GENERATOR_REPCA_FDBD1"; d_ 29 "GENERATOR_REPCA_FDBD2"; d_ 30 "GENERATOR_REPCA_FEMAX";
    Row (Some 31) "GENERATOR_REPCA_FEMIN" TDouble "GENERATOR_REPCA_FEMIN" (D 31) "GENERATOR_REPCA_FEMIN" (D 32);
    d_ 32 "GENERATOR_REPCA_PMAX"; d_ 33 "GENERATOR_REPCA_PMIN"; d_ 34 "GENERATOR_REPCA_TG";
    d_ 35 "GENERATOR_REPCA_DDN"; d_ 36 "GENERATOR_REPCA_DUP" ].
(** repca1.hpp:606-777 store. *)
Definition repca1_store : list (srow) :=
  [ SRow None "bus_id" (I 0); SRow None "gen_id" (Tag 2); SRow None "model" (Up 1); si 3 "repca1_ireg";
    si 4 "repca1_brh_bus_from"; si 5 "repca1_brh_bus_to"; SRow (Some 6) "repca1_brh_ckt" (Tag 6);
    si 7 "repca1_vcflag"; si 8 "repca1_refflag"; si 9 "repca1_fflag"; sd 10 "repca1_tfltr"; sd 11 "repca1_kp";
    sd 12 "repca1_ki"; sd 13 "repca1_tft"; sd 14 "repca1_tfv"; sd 15 "repca1_vfrz"; sd 16 "repca1_rc";
    sd 17 "repca1_xc"; sd 18 "repca1_kc"; sd 19 "repca1_emax"; sd 20 "repca1_emin"; sd 21 "repca1_dbd1";
    sd 22 "repca1_dbd2"; sd 23 "repca1_qmax"; sd 24 "repca1_qmin"; sd 25 "repca1_kpg"; sd 26 "repca1_kig";
    sd 27 "repca1_tp"; sd 28 "repca1_fdbd1"; sd 29 "repca1_fdbd2"; sd 30 "repca1_femax"; sd 31 "repca1_femin";
    sd 32 "repca1_pmax"; sd 33 "repca1_pmin"; sd 34 "repca1_tg"; sd 35 "repca1_ddn"; sd 36 "repca1_dup" ].
(** repca1.hpp:42-269 extract. *)
Definition repca1_extract : list (row fsrc) :=
  [ xb "HAS_PLANT_CONTROLLER"; xs "model" "PLANT_CONTROLLER_MODEL"; xi "repca1_ireg" "GENERATOR_REPCA_IREG";
    xi "repca1_brh_bus_from" "GENERATOR_REPCA_BRCH_BUS_FROM"; xi "repca1_brh_bus_to" "GENERATOR_REPCA_BRCH_BUS_TO";
    xs "repca1_brh_ckt" "GENERATOR_REPCA_BRCH_CKT"; xi "repca1_vcflag" "GENERATOR_REPCA_VC_FLAG";
    xi "repca1_refflag" "GENERATOR_REPCA_REF_FLAG"; xi "repca1_fflag" "GENERATOR_REPCA_F_FLAG";
    xd "repca1_tfltr" "GENERATOR_REPCA_TFLTR"; xd "repca1_kp" "GENERATOR_REPCA_KP";
    xd "repca1_ki" "GENERATOR_REPCA_KI"; xd "repca1_tft" "GENERATOR_REPCA_TFT";
    xd "repca1_tfv" "GENERATOR_REPCA_TFV"; xd "repca1_vfrz" "GENERATOR_REPCA_VFRZ";
    xd "repca1_rc" "GENERATOR_REPCA_RC"; xd "repca1_xc" "GENERATOR_REPCA_XC"; xd "repca1_kc" "GENERATOR_REPCA_KC";
    xd "repca1_emax" "GENERATOR_REPCA_EMAX"; xd "repca1_emin" "GENERATOR_REPCA_EMIN";
    xd "repca1_dbd1" "GENERATOR_REPCA_DBD1"; xd "repca1_dbd2" "GENERATOR_REPCA_DBD2";
    xd "repca1_qmax" "GENERATOR_REPCA_QMAX"; xd "repca1_qmin" "GENERATOR_REPCA_QMIN";
    xd "repca1_kpg" "GENERATOR_REPCA_KPG"; xd "repca1_kig" "GENERATOR_REPCA_KIG";
    xd "repca1_tp" "GENERATOR_REPCA_TP"; xd "repca1_fdbd1" "GENERATOR_REPCA_FDBD1";
    xd "repca1_fdbd2" "GENERATOR_REPCA_FDBD2"; xd "repca1_femax" "GENERATOR_REPCA_FEMAX";
    xd "repca1_femin" "GENERATOR_REPCA_FEMIN"; xd "repca1_pmax" "GENERATOR_REPCA_PMAX";
    xd "repca1_pmin" "GENERATOR_REPCA_PMIN"; xd "repca1_tg" "GENERATOR_REPCA_TG";
    xd "repca1_ddn" "GENERATOR_REPCA_DDN"; xd "repca1_dup" "GENERATOR_REPCA_DUP" ].

(** sexs.hpp:112-199 parse. *)
Definition sexs_parse : list (row src) :=
  [ b_ "HAS_EXCITER"; u_ 1 "EXCITER_MODEL"; d_ 3 "EXCITER_TA_OVER_TB"; d_ 4 "EXCITER_TB"; d_ 5 "EXCITER_K";
    d_ 6 "EXCITER_TE"; d_ 7 "EXCITER_EMIN"; d_ 8 "EXCITER_EMAX" ].
(** sexs.hpp:207-258 store. *)
Definition sexs_store : list (srow) :=
  [ SRow None "bus_id" (I 0); SRow None "gen_id" (Tag 2); SRow None "model" (Up 1); sd 3 "ex_ta_over_tb";
    sd 4 "ex_tb"; sd 5 "ex_k"; sd 6 "ex_te"; sd 7 "ex_emin"; sd 8 "ex_emax" ].
(** sexs.hpp:42-102 extract. *)
Definition sexs_extract : list (row fsrc) :=
  [ xb "HAS_EXCITER"; xs "model" "EXCITER_MODEL"; xd "ex_ta_over_tb" "EXCITER_TA_OVER_TB"; xd "ex_tb" "EXCITER_TB";
    xd "ex_k" "EXCITER_K"; xd "ex_te" "EXCITER_TE"; xd "ex_emin" "EXCITER_EMIN"; xd "ex_emax" "EXCITER_EMAX" ].

(** tgov1.hpp:118-202 parse. *)
Definition tgov1_parse : list (row src) :=
  [ b_ "HAS_GOVERNOR"; u_ 1 "GOVERNOR_MODEL"; d_ 3 "GOVERNOR_R"; d_ 4 "GOVERNOR_T1"; d_ 5 "GOVERNOR_VMAX";
    d_ 6 "GOVERNOR_VMIN"; d_ 7 "GOVERNOR_T2"; d_ 8 "GOVERNOR_T3"; d_ 9 "GOVERNOR_DT" ].
(** tgov1.hpp:210-263 store. *)
Definition tgov1_store : list (srow) :=
  [ SRow None "bus_id" (I 0); SRow None "gen_id" (Tag 2); SRow None "model" (Up 1); sd 3 "gv_r"; sd 4 "gv_t1";
    sd 5 "vmax"; sd 6 "vmin"; sd 7 "gv_t2"; sd 8 "gv_t3"; sd 9 "gv_dt" ].
(** tgov1.hpp:42-108 extract. *)
Definition tgov1_extract : list (row fsrc) :=
  [ xb "HAS_GOVERNOR"; xs "model" "GOVERNOR_MODEL"; xd "gv_r" "GOVERNOR_R"; xd "gv_t1" "GOVERNOR_T1";
    xd "vmax" "GOVERNOR_VMAX"; xd "vmin" "GOVERNOR_VMIN"; xd "gv_t2" "GOVERNOR_T2"; xd "gv_t3" "GOVERNOR_T3";
    xd "gv_dt" "GOVERNOR_DT" ].

(** wshygp.hpp:279-630 parse. *)
Definition wshygp_parse : list (row src) :=
  [ b_ "HAS_GOVERNOR"; u_ 1 "GOVERNOR_MODEL"; d_ 3 "GOVERNOR_DB1"; d_ 4 "GOVERNOR_ERR"; d_ 5 "GOVERNOR_TD";
    d_ 6 "GOVERNOR_KI"; d_ 7 "GOVERNOR_TF"; d_ 8 "GOVERNOR_KD"; d_ 9 "GOVERNOR_KP"; d_ 10 "GOVERNOR_R";
    d_ 11 "GOVERNOR_TT"; d_ 12 "GOVERNOR_KG"; d_ 13 "GOVERNOR_TP"; d_ 14 "GOVERNOR_VELOPEN";
    d_ 15 "GOVERNOR_VELCLOSE"; d_ 16 "GOVERNOR_PMAX"; d_ 17 "GOVERNOR_PMIN"; d_ 18 "GOVERNOR_DB2";
    d_ 19 "GOVERNOR_GV1"; d_ 20 "GOVERNOR_PGV1"; d_ 21 "GOVERNOR_GV2"; d_ 22 "GOVERNOR_PGV2"; d_ 23 "GOVERNOR_GV3";
    d_ 24 "GOVERNOR_PGV3"; d_ 25 "GOVERNOR_GV4"; d_ 26 "GOVERNOR_PGV4"; d_ 27 "GOVERNOR_GV5";
    d_ 28 "GOVERNOR_PGV5"; d_ 29 "GOVERNOR_ATURB"; d_ 30 "GOVERNOR_BTURB"; d_ 31 "GOVERNOR_TTURB";
    d_ 32 "GOVERNOR_TRATE" ].
(** wshygp.hpp:638-807 store. *)
Definition wshygp_store : list (srow) :=
  [ SRow None "bus_id" (I 0); SRow None "gen_id" (Tag 2); SRow None "model" (Up 1); sd 3 "db1"; sd 4 "err";
    sd 5 "gv_td"; sd 6 "gv_ki"; sd 7 "gv_tf"; sd 8 "gv_kd"; sd 9 "gv_kp"; sd 10 "gv_r"; sd 11 "gv_tt";
    sd 12 "gv_kg"; sd 13 "gv_tp"; sd 14 "velopen"; sd 15 "velclose"; sd 16 "pmax"; sd 17 "pmin"; sd 18 "db2";
    sd 19 "gv1"; sd 20 "pgv1"; sd 21 "gv2"; sd 22 "pgv2"; sd 23 "gv3"; sd 24 "pgv3"; sd 25 "gv4"; sd 26 "pgv4";
    sd 27 "gv5"; sd 28 "pgv5"; sd 29 "aturb"; sd 30 "bturb"; sd 31 "tturb"; sd 32 "trate" ].
(** wshygp.hpp:42-269 extract. *)
Definition wshygp_extract : list (row fsrc) :=
  [ xb "HAS_GOVERNOR"; xs "model" "GOVERNOR_MODEL"; xd "db1" "GOVERNOR_DB1"; xd "err" "GOVERNOR_ERR";
    xd "gv_td" "GOVERNOR_TD"; xd "gv_ki" "GOVERNOR_KI"; xd "gv_tf" "GOVERNOR_TF"; xd "gv_kd" "GOVERNOR_KD";
    xd "gv_kp" "GOVERNOR_KP"; xd "gv_r" "GOVERNOR_R"; xd "gv_tt" "GOVERNOR_TT"; xd "gv_kg" "GOVERNOR_KG";
    xd "gv_tp" "GOVERNOR_TP"; xd "velopen" "GOVERNOR_VELOPEN"; xd "velclose" "GOVERNOR_VELCLOSE";
    xd "pmax" "GOVERNOR_PMAX"; xd "pmin" "GOVERNOR_PMIN"; xd "db2" "GOVERNOR_DB2"; xd "gv1" "GOVERNOR_GV1";
    xd "pgv1" "GOVERNOR_PGV1"; xd "gv2" "GOVERNOR_GV2"; xd "pgv2" "GOVERNOR_PGV2"; xd "gv3" "GOVERNOR_GV3";
    xd "pgv3" "GOVERNOR_PGV3"; xd "gv4" "GOVERNOR_GV4"; xd "pgv4" "GOVERNOR_PGV4"; xd "gv5" "GOVERNOR_GV5";
    xd "pgv5" "GOVERNOR_PGV5"; xd "aturb" "GOVERNOR_ATURB"; xd "bturb" "GOVERNOR_BTURB";
    xd "tturb" "GOVERNOR_TTURB"; xd "trate" "GOVERNOR_TRATE" ].

(** wsieg1.hpp:322-740 parse. *)
Definition wsieg1_parse : list (row src) :=
  [ b_ "HAS_GOVERNOR"; u_ 1 "GOVERNOR_MODEL"; i_ 3 "GOVERNOR_JBUS"; i_ 4 "GOVERNOR_M"; d_ 5 "GOVERNOR_K";
    d_ 6 "GOVERNOR_T1"; d_ 7 "GOVERNOR_T2"; d_ 8 "GOVERNOR_T3"; d_ 9 "GOVERNOR_UO"; d_ 10 "GOVERNOR_UC";
    d_ 11 "GOVERNOR_PMAX"; d_ 12 "GOVERNOR_PMIN"; d_ 13 "GOVERNOR_T4"; d_ 14 "GOVERNOR_K1"; d_ 15 "GOVERNOR_K2";
    d_ 16 "GOVERNOR_T5"; d_ 17 "GOVERNOR_K3"; d_ 18 "GOVERNOR_K4"; d_ 19 "GOVERNOR_T6"; d_ 20 "GOVERNOR_K5";
    d_ 21 "GOVERNOR_K6"; d_ 22 "GOVERNOR_T7"; d_ 23 "GOVERNOR_K7"; d_ 24 "GOVERNOR_K8"; d_ 25 "GOVERNOR_DB1";
    d_ 26 "GOVERNOR_ERR"; d_ 27 "GOVERNOR_DB2"; d_ 28 "GOVERNOR_GV1"; d_ 29 "GOVERNOR_PGV1"; d_ 30 "GOVERNOR_GV2";
    d_ 31 "GOVERNOR_PGV2"; d_ 32 "GOVERNOR_GV3"; d_ 33 "GOVERNOR_PGV3"; d_ 34 "GOVERNOR_GV4";
    d_ 35 "GOVERNOR_PGV4"; Row (Some 36) "GOVERNOR_GV5" TDouble "GOVERNOR_GV5" (D 36) "GOVERNOR_GV4" (D 36);
    d_ 37 "GOVERNOR_PGV5"; Row (Some 38) "GOVERNOR_IBLOCK" TInt "GOVERNOR_PGV5" (I 38) "GOVERNOR_IBLOCK" (I 38) ].
(** wsieg1.hpp:748-947 store. *)
Definition wsieg1_store : list (srow) :=
  [ SRow None "bus_id" (I 0); SRow None "gen_id" (Tag 2); SRow None "model" (Up 1); si 3 "jbus"; si 4 "gv_m";
    sd 5 "gv_k"; sd 6 "gv_t1"; sd 7 "gv_t2"; sd 8 "gv_t3"; sd 9 "gv_uo"; sd 10 "gv_uc"; sd 11 "pmax"; sd 12 "pmin";
    sd 13 "gv_t4"; sd 14 "gv_k1"; sd 15 "gv_k2"; sd 16 "gv_t5"; sd 17 "gv_k3"; sd 18 "gv_k4"; sd 19 "gv_t6";
    sd 20 "gv_k5"; sd 21 "gv_k6"; sd 22 "gv_t7"; sd 23 "gv_k7"; sd 24 "gv_k8"; sd 25 "db1"; sd 26 "err";
    sd 27 "db2"; sd 28 "gv1"; sd 29 "pgv1"; sd 30 "gv2"; sd 31 "pgv2"; sd 32 "gv3"; sd 33 "pgv3"; sd 34 "gv4";
    sd 35 "pgv4"; sd 36 "gv5"; sd 37 "pgv5"; si 38 "iblock" ].
(** wsieg1.hpp:42-312 extract. *)
Definition wsieg1_extract : list (row fsrc) :=
  [ xb "HAS_GOVERNOR"; xs "model" "GOVERNOR_MODEL"; xi "jbus" "GOVERNOR_JBUS"; xi "gv_m" "GOVERNOR_M";
    xd "gv_k" "GOVERNOR_K"; xd "gv_t1" "GOVERNOR_T1"; xd "gv_t2" "GOVERNOR_T2";
    Row None "GOVERNOR_T3" TDouble "GOVERNOR_T3" (Fld "gv_t2") "GOVERNOR_T3" (Fld "gv_t3");
    xd "gv_uo" "GOVERNOR_UO"; xd "gv_uc" "GOVERNOR_UC"; xd "pmax" "GOVERNOR_PMAX"; xd "pmin" "GOVERNOR_PMIN";
    xd "gv_t4" "GOVERNOR_T4"; xd "gv_k1" "GOVERNOR_K1"; xd "gv_k2" "GOVERNOR_K2"; xd "gv_t5" "GOVERNOR_T5";
    xd "gv_k3" "GOVERNOR_K3"; xd "gv_k4" "GOVERNOR_K4"; xd "gv_t6" "GOVERNOR_T6"; xd "gv_k5" "GOVERNOR_K5";
    xd "gv_k6" "GOVERNOR_K6"; xd "gv_t7" "GOVERNOR_T7"; xd "gv_k7" "GOVERNOR_K7"; xd "gv_k8" "GOVERNOR_K8";
    xd "db1" "GOVERNOR_DB1"; xd "err" "GOVERNOR_ERR"; xd "db2" "GOVERNOR_DB2"; xd "gv1" "GOVERNOR_GV1";
    xd "pgv1" "GOVERNOR_PGV1"; xd "gv2" "GOVERNOR_GV2"; xd "pgv2" "GOVERNOR_PGV2"; xd "gv3" "GOVERNOR_GV3";
    xd "pgv3" "GOVERNOR_PGV3"; xd "gv4" "GOVERNOR_GV4"; xd "pgv4" "GOVERNOR_PGV4"; xd "gv5" "GOVERNOR_GV5";
    xd "pgv5" "GOVERNOR_PGV5"; xi "iblock" "GOVERNOR_IBLOCK" ].

(** wtara1.hpp:91-139 parse. *)
Definition wtara1_parse : list (row src) :=
  [ b_ "HAS_WIND_AERODYNAMIC"; u_ 1 "WIND_AERODYNAMIC"; w_ 2 "WIND_ID"; d_ 3 "WIND_AD_KA"; d_ 4 "WIND_AD_THETA" ].
(** wtara1.hpp:147-177 store. *)
Definition wtara1_store : list (srow) :=
  [ SRow None "bus_id" (I 0); SRow None "gen_id" (Tag 2); SRow None "model" (Up 1); sd 3 "wind_ka";
    sd 4 "wind_theta" ].
(** wtara1.hpp:42-81 extract. *)
Definition wtara1_extract : list (row fsrc) :=
  [ xb "HAS_WIND_AERODYNAMIC"; xs "model" "WIND_AERODYNAMIC"; xs "gen_id" "WIND_ID"; xd "wind_ka" "WIND_AD_KA";
    xd "wind_theta" "WIND_AD_THETA" ].

(** wtdta1.hpp:112-184 parse. *)
Definition wtdta1_parse : list (row src) :=
  [ b_ "HAS_WIND_DRIVETRAIN"; u_ 1 "WIND_DRIVETRAIN"; w_ 2 "WIND_ID"; d_ 3 "WIND_DT_H"; d_ 4 "WIND_DT_DAMP";
    d_ 5 "WIND_DT_HFRAC"; d_ 6 "WIND_DT_FREQ1"; d_ 7 "WIND_DT_DSHAFT" ].
(** wtdta1.hpp:192-234 store. *)
Definition wtdta1_store : list (srow) :=
  [ SRow None "bus_id" (I 0); SRow None "gen_id" (Tag 2); SRow None "model" (Up 1); sd 3 "wind_h";
    sd 4 "wind_damp"; sd 5 "wind_hfrac"; sd 6 "wind_freq1"; sd 7 "wind_dshaft" ].
(** wtdta1.hpp:42-102 extract. *)
Definition wtdta1_extract : list (row fsrc) :=
  [ xb "HAS_WIND_DRIVETRAIN"; xs "model" "WIND_DRIVETRAIN"; xs "gen_id" "WIND_ID"; xd "wind_h" "WIND_DT_H";
    xd "wind_damp" "WIND_DT_DAMP"; xd "wind_hfrac" "WIND_DT_HFRAC"; xd "wind_freq1" "WIND_DT_FREQ1";
    xd "wind_dshaft" "WIND_DT_DSHAFT" ].

(** wtpta1.hpp:147-259 parse. *)
Definition wtpta1_parse : list (row src) :=
  [ b_ "HAS_WIND_PITCHCONTROL"; u_ 1 "WIND_PITCHCONTROL"; w_ 2 "WIND_ID"; d_ 3 "WIND_PC_KIW"; d_ 4 "WIND_PC_KPW";
    d_ 5 "WIND_PC_KIC"; d_ 6 "WIND_PC_KPC"; d_ 7 "WIND_PC_KCC"; d_ 8 "WIND_PC_TP"; d_ 9 "WIND_PC_THETAMAX";
    d_ 10 "WIND_PC_THETAMIN"; d_ 11 "WIND_PC_RTHETAMAX"; d_ 12 "WIND_PC_RTHETAMIN" ].
(** wtpta1.hpp:267-329 store. *)
Definition wtpta1_store : list (srow) :=
  [ SRow None "bus_id" (I 0); SRow None "gen_id" (Tag 2); SRow None "model" (Up 1); sd 3 "wind_kiw";
    sd 4 "wind_kpw"; sd 5 "wind_kic"; sd 6 "wind_kpc"; sd 7 "wind_kcc"; sd 8 "wind_tp"; sd 9 "wind_thetamax";
    sd 10 "wind_thetamin"; sd 11 "wind_rthetamax"; sd 12 "wind_rthetamin" ].
(** wtpta1.hpp:42-137 extract. *)
Definition wtpta1_extract : list (row fsrc) :=
  [ xb "HAS_WIND_PITCHCONTROL"; xs "model" "WIND_PITCHCONTROL"; xs "gen_id" "WIND_ID"; xd "wind_kiw" "WIND_PC_KIW";
    xd "wind_kpw" "WIND_PC_KPW"; xd "wind_kic" "WIND_PC_KIC"; xd "wind_kpc" "WIND_PC_KPC";
    xd "wind_kcc" "WIND_PC_KCC"; xd "wind_tp" "WIND_PC_TP"; xd "wind_thetamax" "WIND_PC_THETAMAX";
    xd "wind_thetamin" "WIND_PC_THETAMIN"; xd "wind_rthetamax" "WIND_PC_RTHETAMAX";
    xd "wind_rthetamin" "WIND_PC_RTHETAMIN" ].

(** wttqa1.hpp:189-349 parse. *)
Definition wttqa1_parse : list (row src) :=
  [ b_ "HAS_WIND_TORQUECONTROL"; u_ 1 "WIND_TORQUECONTROL"; w_ 2 "WIND_ID"; i_ 3 "WIND_TC_TFLAG";
    d_ 4 "WIND_TC_KPP"; d_ 5 "WIND_TC_KIP"; d_ 6 "WIND_TC_TP"; d_ 7 "WIND_TC_TWREF"; d_ 8 "WIND_TC_TEMAX";
    d_ 9 "WIND_TC_TEMIN"; d_ 10 "WIND_TC_P1"; d_ 11 "WIND_TC_SPD1"; d_ 12 "WIND_TC_P2"; d_ 13 "WIND_TC_SPD2";
    d_ 14 "WIND_TC_P3"; d_ 15 "WIND_TC_SPD3"; d_ 16 "WIND_TC_P4"; d_ 17 "WIND_TC_SPD4"; d_ 18 "WIND_TC_TRATE" ].
(** wttqa1.hpp:357-442 store. *)
Definition wttqa1_store : list (srow) :=
  [ SRow None "bus_id" (I 0); SRow None "gen_id" (Tag 2); SRow None "model" (Up 1); si 3 "wind_tflag";
    sd 4 "wind_kpp"; sd 5 "wind_kip"; sd 6 "wind_tp"; sd 7 "wind_twref"; sd 8 "wind_temax"; sd 9 "wind_temin";
    sd 10 "wind_p1"; sd 11 "wind_spd1"; sd 12 "wind_p2"; sd 13 "wind_spd2"; sd 14 "wind_p3"; sd 15 "wind_spd3";
    sd 16 "wind_p4"; sd 17 "wind_spd4"; sd 18 "wind_trate" ].
(** wttqa1.hpp:42-179 extract. *)
Definition wttqa1_extract : list (row fsrc) :=
  [ xb "HAS_WIND_TORQUECONTROL"; xs "model" "WIND_TORQUECONTROL"; xs "gen_id" "WIND_ID";
    xi "wind_tflag" "WIND_TC_TFLAG"; xd "wind_kpp" "WIND_TC_KPP"; xd "wind_kip" "WIND_TC_KIP";
    xd "wind_tp" "WIND_TC_TP"; xd "wind_twref" "WIND_TC_TWREF"; xd "wind_temax" "WIND_TC_TEMAX";
    xd "wind_temin" "WIND_TC_TEMIN"; xd "wind_p1" "WIND_TC_P1"; xd "wind_spd1" "WIND_TC_SPD1";
    xd "wind_p2" "WIND_TC_P2"; xd "wind_spd2" "WIND_TC_SPD2"; xd "wind_p3" "WIND_TC_P3";
    xd "wind_spd3" "WIND_TC_SPD3"; xd "wind_p4" "WIND_TC_P4"; xd "wind_spd4" "WIND_TC_SPD4";
    xd "wind_trate" "WIND_TC_TRATE" ].
