(** Specification of the reading of dynamic model records: the documented layout of each record type, what reading a
    field means, and the known deviations of the code.  Independent of the tables of the model. *)
From Verif Require Import Prelude DCModel StrModel.
From Coq Require Import Ascii.
Open Scope string_scope.
Open Scope list_scope.

(** ** Layouts
    A field of a record: a parameter at a position (counted from 0) kept under a key with a type, the name of the model
    (in capitals), or a mark that the device is present.  Positions follow the PSS/E manual and the comments in the
    parser classes; types follow /repo/src/parser/variable_defs. *)
Inductive field := Param (pos : nat) (key : string) (ty : dtype) | Name (pos : nat) (key : string) | Flag (key : string).
Definition f_key (f : field) : string := match f with Param _ k _ | Name _ k | Flag k => k end.
Definition f_type (f : field) : dtype := match f with Param _ _ t => t | Name _ _ => TString | Flag _ => TBool end.
Definition f_pos (f : field) : nat := match f with Param p _ _ | Name p _ => p | Flag _ => 0 end.

Fixpoint params (p : nat) (l : list (string * dtype)) : list field :=
  match l with [] => [] | (k, t) :: r => Param p k t :: params (S p) r end.

Module Layout.
Definition d (k : string) := (k, TDouble).
Definition i (k : string) := (k, TInt).
Definition s (k : string) := (k, TString).
Definition esst1a : list field :=
   [Flag "HAS_EXCITER"; Name 1 "EXCITER_MODEL"] ++
   params 3 [d "EXCITER_UEL"; d "EXCITER_VOS"; d "EXCITER_TR"; d "EXCITER_VIMAX"; d "EXCITER_VIMIN";
              d "EXCITER_TC"; d "EXCITER_TB"; d "EXCITER_TC1"; d "EXCITER_TB1"; d "EXCITER_KA"; d "EXCITER_TA";
              d "EXCITER_VAMAX"; d "EXCITER_VAMIN"; d "EXCITER_VRMAX"; d "EXCITER_VRMIN"; d "EXCITER_KC";
              d "EXCITER_KF"; d "EXCITER_TF"; d "EXCITER_KLR"; d "EXCITER_ILR"].
Definition esst4b : list field :=
   [Flag "HAS_EXCITER"; Name 1 "EXCITER_MODEL"] ++
   params 3 [d "EXCITER_TR"; d "EXCITER_KPR"; d "EXCITER_KIR"; d "EXCITER_VRMAX"; d "EXCITER_VRMIN";
              d "EXCITER_TA"; d "EXCITER_KPM"; d "EXCITER_KIM"; d "EXCITER_VMMAX"; d "EXCITER_VMMIN";
              d "EXCITER_KG"; d "EXCITER_KP"; d "EXCITER_KI"; d "EXCITER_VBMAX"; d "EXCITER_KC";
              d "EXCITER_XL"; d "EXCITER_THETAP"].
Definition exdc1 : list field :=
   [Flag "HAS_EXCITER"; Name 1 "EXCITER_MODEL"] ++
   params 3 [d "EXCITER_TR"; d "EXCITER_KA"; d "EXCITER_TA"; d "EXCITER_TB"; d "EXCITER_TC";
              d "EXCITER_VRMAX"; d "EXCITER_VRMIN"; d "EXCITER_KE"; d "EXCITER_TE"; d "EXCITER_KF";
              d "EXCITER_TF1"; d "EXCITER_SWITCH"; d "EXCITER_E1"; d "EXCITER_SE1"; d "EXCITER_E2";
              d "EXCITER_SE2"].
Definition gast : list field :=
   [Flag "HAS_GOVERNOR"; Name 1 "GOVERNOR_MODEL"] ++
   params 3 [d "GOVERNOR_R"; d "GOVERNOR_T1"; d "GOVERNOR_T2"; d "GOVERNOR_T3"; d "GOVERNOR_AT";
              d "GOVERNOR_KT"; d "GOVERNOR_VMAX"; d "GOVERNOR_VMIN"; d "GOVERNOR_DT"].
Definition gdform : list field :=
   [Name 1 "GENERATOR_MODEL"] ++
   params 3 [d "GENERATOR_MQ"; d "GENERATOR_KPV"; d "GENERATOR_KIV"; d "GENERATOR_MP"; d "GENERATOR_KPPMAX";
              d "GENERATOR_KIPMAX"; d "GENERATOR_PMAX"; d "GENERATOR_PMIN"; d "GENERATOR_EMAX";
              d "GENERATOR_EMIN"; d "GENERATOR_TPF"; d "GENERATOR_IMAX"; d "GENERATOR_QMAX";
              d "GENERATOR_QMIN"; d "GENERATOR_KPQMAX"; d "GENERATOR_KIQMAX"; d "GENERATOR_TQF";
              d "GENERATOR_TVF"; i "GENERATOR_VFLAG"].
Definition gencls : list field :=
   [Name 1 "GENERATOR_MODEL"] ++
   params 3 [d "GENERATOR_INERTIA_CONSTANT_H"; d "GENERATOR_DAMPING_COEFFICENT_0";
              d "GENERATOR_TRANSIENT_REACTANCE"].
Definition genrou : list field :=
   [Name 1 "GENERATOR_MODEL"] ++
   params 3 [d "GENERATOR_TDOP"; d "GENERATOR_TDOPP"; d "GENERATOR_TQOP"; d "GENERATOR_TQOPP";
              d "GENERATOR_INERTIA_CONSTANT_H"; d "GENERATOR_DAMPING_COEFFICENT_0"; d "GENERATOR_XD";
              d "GENERATOR_XQ"; d "GENERATOR_XDP"; d "GENERATOR_XQP"; d "GENERATOR_XDPP"; d "GENERATOR_XL";
              d "GENERATOR_S1"; d "GENERATOR_S12"].
Definition gensal : list field :=
   [Name 1 "GENERATOR_MODEL"] ++
   params 3 [d "GENERATOR_TDOP"; d "GENERATOR_TDOPP"; d "GENERATOR_TQOPP"; d "GENERATOR_INERTIA_CONSTANT_H";
              d "GENERATOR_DAMPING_COEFFICENT_0"; d "GENERATOR_XD"; d "GENERATOR_XQ"; d "GENERATOR_XDP";
              d "GENERATOR_XDPP"; d "GENERATOR_XL"; d "GENERATOR_S1"; d "GENERATOR_S12"].
Definition ggov1 : list field :=
   [Flag "HAS_GOVERNOR"; Name 1 "GOVERNOR_MODEL"] ++
   params 3 [d "GOVERNOR_RSELECT"; d "GOVERNOR_FLAGSWITCH"; d "GOVERNOR_R"; d "GOVERNOR_TPELEC";
              d "GOVERNOR_MAXERR"; d "GOVERNOR_MINERR"; d "GOVERNOR_KPGOV"; d "GOVERNOR_KIGOV";
              d "GOVERNOR_KDGOV"; d "GOVERNOR_TDGOV"; d "GOVERNOR_VMAX"; d "GOVERNOR_VMIN"; d "GOVERNOR_TACT";
              d "GOVERNOR_KTURB"; d "GOVERNOR_WFNL"; d "GOVERNOR_TB"; d "GOVERNOR_TC"; d "GOVERNOR_TENG";
              d "GOVERNOR_TFLOAD"; d "GOVERNOR_KPLOAD"; d "GOVERNOR_KILOAD"; d "GOVERNOR_LDREF";
              d "GOVERNOR_DM"; d "GOVERNOR_ROPEN"; d "GOVERNOR_RCLOSE"; d "GOVERNOR_KIMW"; d "GOVERNOR_ASET";
              d "GOVERNOR_KA"; d "GOVERNOR_TA"; d "GOVERNOR_TRATE"; d "GOVERNOR_DB"; d "GOVERNOR_TSA";
              d "GOVERNOR_TSB"; d "GOVERNOR_RUP"; d "GOVERNOR_RDOWN"].
Definition hygov : list field :=
   [Flag "HAS_GOVERNOR"; Name 1 "GOVERNOR_MODEL"] ++
   params 3 [d "GOVERNOR_R"; d "GOVERNOR_r"; d "GOVERNOR_TR"; d "GOVERNOR_TF"; d "GOVERNOR_TG";
              d "GOVERNOR_VELM"; d "GOVERNOR_GMAX"; d "GOVERNOR_GMIN"; d "GOVERNOR_TW"; d "GOVERNOR_AT";
              d "GOVERNOR_DT"; d "GOVERNOR_QNL"].
Definition ieeet1 : list field :=
   [Flag "HAS_EXCITER"; Name 1 "EXCITER_MODEL"] ++
   params 3 [d "EXCITER_TR"; d "EXCITER_KA"; d "EXCITER_TA"; d "EXCITER_VRMAX"; d "EXCITER_VRMIN";
              d "EXCITER_KE"; d "EXCITER_TE"; d "EXCITER_KF"; d "EXCITER_TF1"; d "EXCITER_SWITCH";
              d "EXCITER_E1"; d "EXCITER_SE1"; d "EXCITER_E2"; d "EXCITER_SE2"].
Definition psssim : list field :=
   [Flag "HAS_PSS"; Name 1 "PSS_MODEL"] ++
   params 3 [i "PSSSIM_INPUTTYPE"; i "PSSSIM_BUS1"; i "PSSSIM_BUS2"; i "PSSSIM_BUS3"; i "PSSSIM_BUS4";
              i "PSSSIM_BUS5"; i "PSSSIM_BUS6"; d "PSSSIM_GAINK"; d "PSSSIM_TW"; d "PSSSIM_T1"; d "PSSSIM_T2";
              d "PSSSIM_T3"; d "PSSSIM_T4"; d "PSSSIM_MAXOUT"; d "PSSSIM_MINOUT"].
Definition reeca1 : list field :=
   [Flag "HAS_EXCITER"; Name 1 "EXCITER_MODEL"] ++
   params 3 [i "GENERATOR_REECA_IREG"; i "GENERATOR_REECA_PFFLAG"; i "GENERATOR_REECA_VFLAG";
              i "GENERATOR_REECA_QFLAG"; i "GENERATOR_REECA_PFLAG"; i "GENERATOR_REECA_PQFLAG";
              d "GENERATOR_REECA_VDIP"; d "GENERATOR_REECA_VUP"; d "GENERATOR_REECA_TRV";
              d "GENERATOR_REECA_DBD1"; d "GENERATOR_REECA_DBD2"; d "GENERATOR_REECA_KQV";
              d "GENERATOR_REECA_IQH1"; d "GENERATOR_REECA_IQL1"; d "GENERATOR_REECA_VREF0";
              d "GENERATOR_REECA_IQFRZ"; d "GENERATOR_REECA_THLD"; d "GENERATOR_REECA_THLD2";
              d "GENERATOR_REECA_TP"; d "GENERATOR_REECA_QMAX"; d "GENERATOR_REECA_QMIN";
              d "GENERATOR_REECA_VMAX"; d "GENERATOR_REECA_VMIN"; d "GENERATOR_REECA_KQP";
              d "GENERATOR_REECA_KQI"; d "GENERATOR_REECA_KVP"; d "GENERATOR_REECA_KVI";
              d "GENERATOR_REECA_VBIAS"; d "GENERATOR_REECA_TIQ"; d "GENERATOR_REECA_DPMAX";
              d "GENERATOR_REECA_DPMIN"; d "GENERATOR_REECA_PMAX"; d "GENERATOR_REECA_PMIN";
              d "GENERATOR_REECA_IMAX"; d "GENERATOR_REECA_TPORD"; d "GENERATOR_REECA_VQ1";
              d "GENERATOR_REECA_IQ1"; d "GENERATOR_REECA_VQ2"; d "GENERATOR_REECA_IQ2";
              d "GENERATOR_REECA_VQ3"; d "GENERATOR_REECA_IQ3"; d "GENERATOR_REECA_VQ4";
              d "GENERATOR_REECA_IQ4"; d "GENERATOR_REECA_VP1"; d "GENERATOR_REECA_IP1";
              d "GENERATOR_REECA_VP2"; d "GENERATOR_REECA_IP2"; d "GENERATOR_REECA_VP3";
              d "GENERATOR_REECA_IP3"; d "GENERATOR_REECA_VP4"; d "GENERATOR_REECA_IP4"].
Definition regca1 : list field :=
   [Name 1 "GENERATOR_MODEL"] ++
   params 3 [i "GENERATOR_REGC_LVPLSW"; d "GENERATOR_REGC_TG"; d "GENERATOR_REGC_RRPWR";
              d "GENERATOR_REGC_BRKPT"; d "GENERATOR_REGC_ZEROX"; d "GENERATOR_REGC_LVPL1";
              d "GENERATOR_REGC_VOLIM"; d "GENERATOR_REGC_LVPNT1"; d "GENERATOR_REGC_LVPNT0";
              d "GENERATOR_REGC_LOLIM"; d "GENERATOR_REGC_TFLTR"; d "GENERATOR_REGC_KHV";
              d "GENERATOR_REGC_IQRMAX"; d "GENERATOR_REGC_IQRMIN"; d "GENERATOR_REGC_ACCEL"].
Definition regcb1 : list field :=
   [Name 1 "GENERATOR_MODEL"] ++
   params 3 [i "GENERATOR_REGC_RATEFLAG"; i "GENERATOR_REGC_PQFLAG"; d "GENERATOR_REGC_TG";
              d "GENERATOR_REGC_TFLTR"; d "GENERATOR_REGC_IQRMAX"; d "GENERATOR_REGC_IQRMIN";
              d "GENERATOR_REGC_RRPWR"; d "GENERATOR_REGC_TE"; d "GENERATOR_REGC_IMAX"].
Definition regcc1 : list field :=
   [Name 1 "GENERATOR_MODEL"] ++
   params 3 [i "GENERATOR_REGC_RATEFLAG"; i "GENERATOR_REGC_PQFLAG"; d "GENERATOR_REGC_TG";
              d "GENERATOR_REGC_TFLTR"; d "GENERATOR_REGC_IQRMAX"; d "GENERATOR_REGC_IQRMIN";
              d "GENERATOR_REGC_RRPWR"; d "GENERATOR_REGC_TE"; d "GENERATOR_REGC_IMAX"; d "GENERATOR_REGC_KIP";
              d "GENERATOR_REGC_KII"; d "GENERATOR_REGC_KPPLL"; d "GENERATOR_REGC_KIPLL";
              d "GENERATOR_REGC_WMAX"; d "GENERATOR_REGC_WMIN"].
Definition repca1 : list field :=
   [Flag "HAS_PLANT_CONTROLLER"; Name 1 "PLANT_CONTROLLER_MODEL"] ++
   params 3 [i "GENERATOR_REPCA_IREG"; i "GENERATOR_REPCA_BRCH_BUS_FROM"; i "GENERATOR_REPCA_BRCH_BUS_TO";
              s "GENERATOR_REPCA_BRCH_CKT"; i "GENERATOR_REPCA_VC_FLAG"; i "GENERATOR_REPCA_REF_FLAG";
              i "GENERATOR_REPCA_F_FLAG"; d "GENERATOR_REPCA_TFLTR"; d "GENERATOR_REPCA_KP";
              d "GENERATOR_REPCA_KI"; d "GENERATOR_REPCA_TFT"; d "GENERATOR_REPCA_TFV";
              d "GENERATOR_REPCA_VFRZ"; d "GENERATOR_REPCA_RC"; d "GENERATOR_REPCA_XC"; d "GENERATOR_REPCA_KC";
              d "GENERATOR_REPCA_EMAX"; d "GENERATOR_REPCA_EMIN"; d "GENERATOR_REPCA_DBD1";
              d "GENERATOR_REPCA_DBD2"; d "GENERATOR_REPCA_QMAX"; d "GENERATOR_REPCA_QMIN";
              d "GENERATOR_REPCA_KPG"; d "GENERATOR_REPCA_KIG"; d "GENERATOR_REPCA_TP";
              d "GENERATOR_REPCA_FDBD1"; d "GENERATOR_REPCA_FDBD2"; d "GENERATOR_REPCA_FEMAX";
              d "GENERATOR_REPCA_FEMIN"; d "GENERATOR_REPCA_PMAX"; d "GENERATOR_REPCA_PMIN";
              d "GENERATOR_REPCA_TG"; d "GENERATOR_REPCA_DDN"; d "GENERATOR_REPCA_DUP"].
Definition sexs : list field :=
   [Flag "HAS_EXCITER"; Name 1 "EXCITER_MODEL"] ++
   params 3 [d "EXCITER_TA_OVER_TB"; d "EXCITER_TB"; d "EXCITER_K"; d "EXCITER_TE"; d "EXCITER_EMIN";
              d "EXCITER_EMAX"].
Definition tgov1 : list field :=
   [Flag "HAS_GOVERNOR"; Name 1 "GOVERNOR_MODEL"] ++
   params 3 [d "GOVERNOR_R"; d "GOVERNOR_T1"; d "GOVERNOR_VMAX"; d "GOVERNOR_VMIN"; d "GOVERNOR_T2";
              d "GOVERNOR_T3"; d "GOVERNOR_DT"].
Definition wshygp : list field :=
   [Flag "HAS_GOVERNOR"; Name 1 "GOVERNOR_MODEL"] ++
   params 3 [d "GOVERNOR_DB1"; d "GOVERNOR_ERR"; d "GOVERNOR_TD"; d "GOVERNOR_KI"; d "GOVERNOR_TF";
              d "GOVERNOR_KD"; d "GOVERNOR_KP"; d "GOVERNOR_R"; d "GOVERNOR_TT"; d "GOVERNOR_KG";
              d "GOVERNOR_TP"; d "GOVERNOR_VELOPEN"; d "GOVERNOR_VELCLOSE"; d "GOVERNOR_PMAX";
              d "GOVERNOR_PMIN"; d "GOVERNOR_DB2"; d "GOVERNOR_GV1"; d "GOVERNOR_PGV1"; d "GOVERNOR_GV2";
              d "GOVERNOR_PGV2"; d "GOVERNOR_GV3"; d "GOVERNOR_PGV3"; d "GOVERNOR_GV4"; d "GOVERNOR_PGV4";
              d "GOVERNOR_GV5"; d "GOVERNOR_PGV5"; d "GOVERNOR_ATURB"; d "GOVERNOR_BTURB"; d "GOVERNOR_TTURB";
              d "GOVERNOR_TRATE"].
Definition wsieg1 : list field :=
   [Flag "HAS_GOVERNOR"; Name 1 "GOVERNOR_MODEL"] ++
   params 3 [i "GOVERNOR_JBUS"; i "GOVERNOR_M"; d "GOVERNOR_K"; d "GOVERNOR_T1"; d "GOVERNOR_T2";
              d "GOVERNOR_T3"; d "GOVERNOR_UO"; d "GOVERNOR_UC"; d "GOVERNOR_PMAX"; d "GOVERNOR_PMIN";
              d "GOVERNOR_T4"; d "GOVERNOR_K1"; d "GOVERNOR_K2"; d "GOVERNOR_T5"; d "GOVERNOR_K3";
              d "GOVERNOR_K4"; d "GOVERNOR_T6"; d "GOVERNOR_K5"; d "GOVERNOR_K6"; d "GOVERNOR_T7";
              d "GOVERNOR_K7"; d "GOVERNOR_K8"; d "GOVERNOR_DB1"; d "GOVERNOR_ERR"; d "GOVERNOR_DB2";
              d "GOVERNOR_GV1"; d "GOVERNOR_PGV1"; d "GOVERNOR_GV2"; d "GOVERNOR_PGV2"; d "GOVERNOR_GV3";
              d "GOVERNOR_PGV3"; d "GOVERNOR_GV4"; d "GOVERNOR_PGV4"; d "GOVERNOR_GV5"; d "GOVERNOR_PGV5";
              i "GOVERNOR_IBLOCK"].
Definition wtara1 : list field :=
   [Flag "HAS_WIND_AERODYNAMIC"; Name 1 "WIND_AERODYNAMIC"] ++
   params 2 [s "WIND_ID"; d "WIND_AD_KA"; d "WIND_AD_THETA"].
Definition wtdta1 : list field :=
   [Flag "HAS_WIND_DRIVETRAIN"; Name 1 "WIND_DRIVETRAIN"] ++
   params 2 [s "WIND_ID"; d "WIND_DT_H"; d "WIND_DT_DAMP"; d "WIND_DT_HFRAC"; d "WIND_DT_FREQ1";
              d "WIND_DT_DSHAFT"].
Definition wtpta1 : list field :=
   [Flag "HAS_WIND_PITCHCONTROL"; Name 1 "WIND_PITCHCONTROL"] ++
   params 2 [s "WIND_ID"; d "WIND_PC_KIW"; d "WIND_PC_KPW"; d "WIND_PC_KIC"; d "WIND_PC_KPC"; d "WIND_PC_KCC";
              d "WIND_PC_TP"; d "WIND_PC_THETAMAX"; d "WIND_PC_THETAMIN"; d "WIND_PC_RTHETAMAX";
              d "WIND_PC_RTHETAMIN"].
Definition wttqa1 : list field :=
   [Flag "HAS_WIND_TORQUECONTROL"; Name 1 "WIND_TORQUECONTROL"] ++
   params 2 [s "WIND_ID"; i "WIND_TC_TFLAG"; d "WIND_TC_KPP"; d "WIND_TC_KIP"; d "WIND_TC_TP";
              d "WIND_TC_TWREF"; d "WIND_TC_TEMAX"; d "WIND_TC_TEMIN"; d "WIND_TC_P1"; d "WIND_TC_SPD1";
              d "WIND_TC_P2"; d "WIND_TC_SPD2"; d "WIND_TC_P3"; d "WIND_TC_SPD3"; d "WIND_TC_P4";
              d "WIND_TC_SPD4"; d "WIND_TC_TRATE"].
Definition lvshbl : list field :=
   [Name 1 "RELAY_MODEL"] ++
   params 2 [s "RELAY_LID"; i "RELAY_JBUS"; d "RELAY_V1"; d "RELAY_T1"; d "RELAY_F1"; d "RELAY_V2";
              d "RELAY_T2"; d "RELAY_F2"; d "RELAY_V3"; d "RELAY_T3"; d "RELAY_F3"; d "RELAY_TB"].
Definition frqtpat : list field :=
   [Name 1 "RELAY_MODEL"] ++
   params 0 [i "RELAY_MINS"] ++
   params 2 [i "RELAY_FREBUS"] ++
   params 4 [s "RELAY_GENID"; d "RELAY_FL"; d "RELAY_FU"; d "RELAY_TP"; d "RELAY_TB"].
Definition distr1 : list field :=
   [Name 1 "RELAY_MODEL"] ++
   params 3 [s "RELAY_ID"; i "RELAY_RS"; i "RELAY_MTYPE"; i "RELAY_BMON"; i "RELAY_IBUS1"; i "RELAY_JBUS1";
              s "RELAY_ID1"; i "RELAY_IBUS2"; i "RELAY_JBUS2"; s "RELAY_ID2"; i "RELAY_IBUS3"; i "RELAY_JBUS3";
              s "RELAY_ID3"; d "RELAY_ZONE1_TIME"; d "RELAY_ZONE1_REACH"; d "RELAY_ZONE1_CENANG";
              d "RELAY_ZONE1_CENDIS"; d "RELAY_ZONE2_TIME"; d "RELAY_ZONE2_REACH"; d "RELAY_ZONE2_CENANG";
              d "RELAY_ZONE2_CENDIS"; d "RELAY_ZONE3_TIME"; d "RELAY_ZONE3_REACH"; d "RELAY_ZONE3_CENANG";
              d "RELAY_ZONE3_CENDIS"; d "RELAY_DIRANG"; d "RELAY_THCUR"; d "RELAY_SEBTIME"; d "RELAY_SERCTIME";
              d "RELAY_TRBTIME"; d "RELAY_TRRCTIME"; i "RELAY_BLTYPE1"; d "RELAY_BLINT1"; d "RELAY_BLRO1";
              i "RELAY_BLTYPE2"; d "RELAY_BLINT2"; d "RELAY_BLRO2"].
Definition cim6bl : list field :=
   [Name 1 "LOAD_MODEL"] ++
   params 3 [i "LOAD_IT"; d "LOAD_RA"; d "LOAD_XA"; d "LOAD_XM"; d "LOAD_R1"; d "LOAD_X1"; d "LOAD_R2";
              d "LOAD_X2"; d "LOAD_E1"; d "LOAD_SE1"; d "LOAD_E2"; d "LOAD_SE2"; d "LOAD_MBASE";
              d "LOAD_PMULT"; d "LOAD_H"; d "LOAD_VI"; d "LOAD_TI"; d "LOAD_TB"; d "LOAD_A"; d "LOAD_B";
              d "LOAD_D"; d "LOAD_E"; d "LOAD_C0"; d "LOAD_TNOM"; d "LOAD_DYN_PERC"].
Definition ieelbl : list field :=
   [Name 1 "LOAD_MODEL"] ++
   params 3 [d "LOAD_A1"; d "LOAD_A2"; d "LOAD_A3"; d "LOAD_A4"; d "LOAD_A5"; d "LOAD_A6"; d "LOAD_A7";
              d "LOAD_A8"; d "LOAD_N1"; d "LOAD_N2"; d "LOAD_N3"; d "LOAD_N4"; d "LOAD_N5"; d "LOAD_N6"].
Definition acmtblu1 : list field :=
   [Name 3 "LOAD_MODEL"] ++
   params 11 [d "LOAD_TSTALL"; d "LOAD_TRESTART"; d "LOAD_TV"; d "LOAD_TF"; d "LOAD_COMPLF"; d "LOAD_COMPPF";
              d "LOAD_VSTALL"; d "LOAD_RSTALL"; d "LOAD_XSTALL"; d "LOAD_LFADJ"; d "LOAD_KP1"; d "LOAD_NP1";
              d "LOAD_KQ1"; d "LOAD_NQ1"; d "LOAD_KP2"; d "LOAD_NP2"; d "LOAD_KQ2"; d "LOAD_NQ2";
              d "LOAD_VBRK"; d "LOAD_FRST"; d "LOAD_VRST"; d "LOAD_CMPKPF"; d "LOAD_CMPKQF"; d "LOAD_VC1OFF";
              d "LOAD_VC2OFF"; d "LOAD_VC1ON"; d "LOAD_VC2ON"; d "LOAD_TTH"; d "LOAD_TH1T"; d "LOAD_TH2T";
              d "LOAD_FUVR"; d "LOAD_UVTR1"; d "LOAD_TTR1"; d "LOAD_UVTR2"; d "LOAD_TTR2"; d "LOAD_AC_PERC"].
Definition cmldblu1 : list field :=
   [Name 3 "LOAD_MODEL"] ++
   params 5 [i "LOAD_IT"] ++
   params 11 [d "LOAD_MVA"; d "LOAD_BSS"; d "LOAD_RFDR"; d "LOAD_XFDR"; d "LOAD_FB"; d "LOAD_XXF";
              d "LOAD_TFIXHS"; d "LOAD_TFIXLS"; d "LOAD_LTC"; d "LOAD_TMIN"; d "LOAD_TMAX"; d "LOAD_STEP";
              d "LOAD_VMIN"; d "LOAD_VMAX"; d "LOAD_TDEL"; d "LOAD_TTAP"; d "LOAD_RCOMP"; d "LOAD_XCOMP";
              d "LOAD_FMA"; d "LOAD_FMB"; d "LOAD_FMC"; d "LOAD_FMD"; d "LOAD_FEL"; d "LOAD_PFEL";
              d "LOAD_VD1"; d "LOAD_VD2"; d "LOAD_PFS"; d "LOAD_P1E"; d "LOAD_P1C"; d "LOAD_P2E"; d "LOAD_P2C";
              d "LOAD_PFREQ"; d "LOAD_Q1E"; d "LOAD_Q1C"; d "LOAD_Q2E"; d "LOAD_Q2C"; d "LOAD_QFREQ";
              i "LOAD_MTPA"; d "LOAD_LFMA"; d "LOAD_RSA"; d "LOAD_LSA"; d "LOAD_LPA"; d "LOAD_LPPA";
              d "LOAD_TPOA"; d "LOAD_TPPOA"; d "LOAD_HA"; d "LOAD_ETRQA"; d "LOAD_VTR1A"; d "LOAD_TTR1A";
              d "LOAD_FTR1A"; d "LOAD_VRC1A"; d "LOAD_TRC1A"; d "LOAD_VTR2A"; d "LOAD_TTR2A"; d "LOAD_FTR2A";
              d "LOAD_VRC2A"; d "LOAD_TRC2A"; i "LOAD_MTPB"; d "LOAD_LFMB"; d "LOAD_RSB"; d "LOAD_LSB";
              d "LOAD_LPB"; d "LOAD_LPPB"; d "LOAD_TPOB"; d "LOAD_TPPOB"; d "LOAD_HB"; d "LOAD_ETRQB";
              d "LOAD_VTR1B"; d "LOAD_TTR1B"; d "LOAD_FTR1B"; d "LOAD_VRC1B"; d "LOAD_TRC1B"; d "LOAD_VTR2B";
              d "LOAD_TTR2B"; d "LOAD_FTR2B"; d "LOAD_VRC2B"; d "LOAD_TRC2B"; i "LOAD_MTPC"; d "LOAD_LFMC";
              d "LOAD_RSC"; d "LOAD_LSC"; d "LOAD_LPC"; d "LOAD_LPPC"; d "LOAD_TPOC"; d "LOAD_TPPOC";
              d "LOAD_HC"; d "LOAD_ETRQC"; d "LOAD_VTR1C"; d "LOAD_TTR1C"; d "LOAD_FTR1C"; d "LOAD_VRC1C";
              d "LOAD_TRC1C"; d "LOAD_VTR2C"; d "LOAD_TTR2C"; d "LOAD_FTR2C"; d "LOAD_VRC2C"; d "LOAD_TRC2C";
              d "LOAD_TSTALL"; d "LOAD_TRST"; d "LOAD_TV"; d "LOAD_TF"; d "LOAD_LFMD"; d "LOAD_COMPPF";
              d "LOAD_VSTALL"; d "LOAD_RSTALL"; d "LOAD_XSTALL"; d "LOAD_LFADJ"; d "LOAD_KP1"; d "LOAD_NP1";
              d "LOAD_KQ1"; d "LOAD_NQ1"; d "LOAD_KP2"; d "LOAD_NP2"; d "LOAD_KQ2"; d "LOAD_NQ2";
              d "LOAD_VBRK"; d "LOAD_FRST"; d "LOAD_VRST"; d "LOAD_CMPKPF"; d "LOAD_CMPKQF"; d "LOAD_VC1OFF";
              d "LOAD_VC2OFF"; d "LOAD_VC1ON"; d "LOAD_VC2ON"; d "LOAD_TTH"; d "LOAD_TH1T"; d "LOAD_TH2T";
              d "LOAD_FUVR"; d "LOAD_UVTR1"; d "LOAD_TTR1"; d "LOAD_UVTR2"; d "LOAD_TTR2"].
Definition generator_models : list (string * list field) :=
  [("ESST1A", esst1a); ("ESST4B", esst4b); ("EXDC1", exdc1); ("EXDC2", exdc1); ("GAST", gast);
   ("GDFORM", gdform); ("GENCLS", gencls); ("GENROU", genrou); ("GENSAL", gensal); ("GGOV1", ggov1);
   ("HYGOV", hygov); ("IEEET1", ieeet1); ("PSSSIM", psssim); ("REECA1", reeca1); ("REGCA1", regca1);
   ("REGCB1", regcb1); ("REGCC1", regcc1); ("REPCA1", repca1); ("REPCTA1", repca1); ("SEXS", sexs);
   ("TGOV1", tgov1); ("WSHYGP", wshygp); ("WSIEG1", wsieg1); ("WTARA1", wtara1); ("WTDTA1", wtdta1);
   ("WTPTA1", wtpta1); ("WTTQA1", wttqa1)].
Definition relay_models : list (string * list field) :=
  [("LVSHBL", lvshbl); ("FRQTPAT", frqtpat)].
Definition branch_relay_models : list (string * list field) :=
  [("DISTR1", distr1)].
Definition load_models : list (string * list field) :=
  [("CIM6BL", cim6bl); ("IEELBL", ieelbl); ("ACMTBLU1", acmtblu1); ("CMLDBLU1", cmldblu1)].
End Layout.

(** ** Reading a field of a record split into tokens *)
Section Reads.
Variable atof : str -> Z.
Definition capital (c : ascii) : ascii :=
  if (97 <=? nat_of_ascii c)%nat && (nat_of_ascii c <=? 122)%nat then ascii_of_nat (nat_of_ascii c - 32) else c.
Definition reads (toks : list str) (f : field) (v : value) : Prop :=
  match f with
  | Param p _ TDouble => exists x, nth_error toks p = Some x /\ v = VDouble (atof x)
  | Param p _ TInt => exists x z, nth_error toks p = Some x /\ atoi x = Ok z /\ v = VInt z
  | Param p _ TString => exists x t, nth_error toks p = Some x /\ clean2char x = Ok t /\ v = VString (string_of_list_ascii t)
  | Param _ _ _ => False
  | Name p _ => exists x t, nth_error toks p = Some x /\ trim_quotes x = Ok t /\ v = VString (string_of_list_ascii (map capital t))
  | Flag _ => v = VBool true
  end.
(** The words of a record that say what it is for. *)
Definition model_name (toks : list str) (p : nat) (m : string) : Prop :=
  exists x t, nth_error toks p = Some x /\ trim_quotes x = Ok t /\ m = string_of_list_ascii (map capital t).
Definition number (toks : list str) (p : nat) (z : Z) : Prop := exists x, nth_error toks p = Some x /\ atoi x = Ok z.
Definition ident (toks : list str) (p : nat) (tag : string) : Prop :=
  exists x t, nth_error toks p = Some x /\ clean2char x = Ok t /\ tag = string_of_list_ascii t.
(** Bus, model, identifier, parameters. *)
Definition generator_record (toks : list str) (m : string) (l : list field) (b : Z) (tag : string) : Prop :=
  In (m, l) Layout.generator_models /\ model_name toks 1 m /\ number toks 0 b /\ ident toks 2 tag.
(** Either the model in the second word, or 'USRLOD' there and the model in the fourth, in capitals. *)
Definition load_record (toks : list str) (m : string) (l : list field) (b : Z) (tag : string) : Prop :=
  In (m, l) Layout.load_models /\ number toks 0 b /\ ident toks 2 tag /\
  (In m ["CIM6BL"; "IEELBL"] /\ model_name toks 1 m \/
   In m ["ACMTBLU1"; "CMLDBLU1"] /\ model_name toks 1 "USRLOD" /\
     exists x t, nth_error toks 3 = Some x /\ trim_quotes x = Ok t /\ m = string_of_list_ascii t).
(** The bus comes first, for FRQTPAT fourth. *)
Definition relay_record (toks : list str) (m : string) (l : list field) (b : Z) : Prop :=
  In (m, l) Layout.relay_models /\ model_name toks 1 m /\ number toks (if String.eqb m "FRQTPAT" then 3 else 0) b.
(** A complete record: every field is there and can be read. *)
Definition complete (toks : list str) (l : list field) : Prop := Forall (fun f => exists v, reads toks f v) l.
(** A record that can be read without trouble: complete, or for a model nobody knows. *)
Definition known_models : list string :=
  map fst Layout.generator_models ++ map fst Layout.relay_models ++ ["CIM6BL"; "USRLOD"; "IEELBL"] ++ map fst Layout.branch_relay_models.
Definition readable (toks : list str) : Prop :=
  (exists m l b tag, generator_record toks m l b tag /\ complete toks l) \/
  (exists m l b, relay_record toks m l b /\ complete toks l) \/
  (exists m l b tag, load_record toks m l b tag /\ complete toks l) \/
  (exists m, model_name toks 1 m /\ ~ In m known_models).
End Reads.

(** ** What the data collection answers for entry [idx] of a field *)
Definition holds (c : dc) (f : field) (idx : Z) (v : value) : Prop :=
  forall old, get_value c (f_type f) (Indexed (f_key f) idx) old = Ok (true, v).
Definition unset (c : dc) (f : field) (idx : Z) : Prop :=
  forall old, get_value c (f_type f) (Indexed (f_key f) idx) old = Ok (false, old).

(** ** Known deviations: (model, key) pairs for which the claim below is false *)
(** getDS, whatever was there before. *)
Definition parse_wrong : list (string * string) :=
  [("GENROU", "GENERATOR_XQ"); ("GDFORM", "GENERATOR_MP"); ("GDFORM", "GENERATOR_VFLAG"); ("REECA1", "GENERATOR_REECA_TIQ");
   ("REPCA1", "GENERATOR_REPCA_FEMIN"); ("REPCTA1", "GENERATOR_REPCA_FEMIN");
   ("REPCA1", "GENERATOR_REPCA_BRCH_CKT"); ("REPCTA1", "GENERATOR_REPCA_BRCH_CKT");
   ("WSIEG1", "GOVERNOR_GV4"); ("WSIEG1", "GOVERNOR_GV5"); ("WSIEG1", "GOVERNOR_IBLOCK");
   ("PSSSIM", "PSSSIM_INPUTTYPE"); ("PSSSIM", "PSSSIM_BUS1"); ("PSSSIM", "PSSSIM_BUS2"); ("PSSSIM", "PSSSIM_BUS3");
   ("PSSSIM", "PSSSIM_BUS4"); ("PSSSIM", "PSSSIM_BUS5"); ("PSSSIM", "PSSSIM_BUS6"); ("IEELBL", "LOAD_A1");
   ("ACMTBLU1", "LOAD_UVTR1"); ("ACMTBLU1", "LOAD_UVTR2"); ("CMLDBLU1", "LOAD_RSB"); ("CMLDBLU1", "LOAD_LSB")].
(** getDS, when the entry is not there yet. *)
Definition parse_wrong_first : list (string * string) :=
  [("REPCA1", "GENERATOR_REPCA_BRCH_CKT"); ("REPCTA1", "GENERATOR_REPCA_BRCH_CKT"); ("WSIEG1", "GOVERNOR_GV4");
   ("WSIEG1", "GOVERNOR_IBLOCK");
   ("PSSSIM", "PSSSIM_INPUTTYPE"); ("PSSSIM", "PSSSIM_BUS1"); ("PSSSIM", "PSSSIM_BUS2"); ("PSSSIM", "PSSSIM_BUS3");
   ("PSSSIM", "PSSSIM_BUS4"); ("PSSSIM", "PSSSIM_BUS5"); ("PSSSIM", "PSSSIM_BUS6");
   ("ACMTBLU1", "LOAD_UVTR1"); ("ACMTBLU1", "LOAD_UVTR2"); ("CMLDBLU1", "LOAD_RSB"); ("CMLDBLU1", "LOAD_LSB")].
(** externalParse, whatever was there before. *)
Definition extern_wrong : list (string * string) :=
  [("WSIEG1", "GOVERNOR_T3");
   ("PSSSIM", "PSSSIM_INPUTTYPE"); ("PSSSIM", "PSSSIM_BUS1"); ("PSSSIM", "PSSSIM_BUS2"); ("PSSSIM", "PSSSIM_BUS3");
   ("PSSSIM", "PSSSIM_BUS4"); ("PSSSIM", "PSSSIM_BUS5"); ("PSSSIM", "PSSSIM_BUS6");
   ("CIM6BL", "LOAD_X1"); ("CIM6BL", "LOAD_E2"); ("ACMTBLU1", "LOAD_NQ1"); ("ACMTBLU1", "LOAD_NQ2");
   ("CMLDBLU1", "LOAD_TTR1"); ("CMLDBLU1", "LOAD_UVTR2"); ("CMLDBLU1", "LOAD_VC2ON"); ("DISTR1", "RELAY_ZONE3_TIME")].
Definition listed (l : list (string * string)) (m : string) (f : field) : Prop := In (m, f_key f) l.

(** ** Devices at a bus *)
(** The first of the bus's generators (or loads) with identifier [tag]. *)
Definition device (c : dc) (num_key id_key tag : string) (g : Z) : Prop :=
  tag <> "" /\
  (exists n, (forall old, get_value c TInt (Plain num_key) old = Ok (true, VInt n)) /\ (0 <= g < n)%Z) /\
  (forall old, get_value c TString (Indexed id_key g) old = Ok (true, VString tag)) /\
  (forall j old, (0 <= j < g)%Z -> get_value c TString (Indexed id_key j) old <> Ok (true, VString tag)).
Definition generator (c : dc) (tag : string) (g : Z) : Prop := device c "GENERATOR_NUMBER" "GENERATOR_ID" tag g.
Definition load (c : dc) (tag : string) (g : Z) : Prop := device c "LOAD_NUMBER" "LOAD_ID" tag g.

(** The number an int entry holds, 0 if there is none. *)
Definition counted (c : dc) (k : string) (n : Z) : Prop :=
  (forall old, get_value c TInt (Plain k) old = Ok (true, VInt n)) \/
  (n = 0%Z /\ forall old, get_value c TInt (Plain k) old = Ok (false, old)).

(** ** Records in a file *)
(** The record [r] has the words [toks] (StrModel.v, C23). *)
Definition words (r : str) (toks : list str) : Prop :=
  match split_line (S (length r)) r with Some o => o | None => UB end = Ok toks.
Definition slash_in (s : str) : Prop := In "/"%char s.
Definition blank (s : str) : Prop := forall c, In c s -> c = " "%char.
(** Lines ignored between records: blank ones; getDSExternal also ignores lines of carriage returns and comments. *)
Definition ignored (ext : bool) (s : str) : Prop :=
  blank s \/ ext = true /\ ((forall c, In c s -> c = ascii_of_nat 13) \/
                            exists n c rest, s = repeat " "%char n ++ "/"%char :: "/"%char :: c :: rest).
(** Lines [ls] that make up one record with text [r]: the first is not ignored, only the last has a slash, and what
    follows the first slash is dropped. *)
Definition record_lines (ext : bool) (ls : list str) (r : str) : Prop :=
  exists init last tail, ls = init ++ [last] /\ Forall (fun x => ~ slash_in x) init /\
    concat ls = r ++ "/"%char :: tail /\ ~ slash_in r /\ slash_in last /\ match ls with x :: _ => ~ ignored ext x | [] => False end.
(** A file: records, with ignored lines before, between and after them. *)
Inductive dyr_file (ext : bool) : list str -> list str -> Prop :=
| DF_end : dyr_file ext [] []
| DF_ignored x lines rs : ignored ext x -> dyr_file ext lines rs -> dyr_file ext (x :: lines) rs
| DF_record ls r lines rs : record_lines ext ls r -> dyr_file ext lines rs -> dyr_file ext (ls ++ lines) (r :: rs).
Definition no_distr (r : str) : Prop := forall toks, words r toks -> ~ model_name toks 1 "DISTR1".
(** Number of relay records for bus [b]. *)
Inductive relays_for (b : Z) : list str -> nat -> Prop :=
| RF_nil : relays_for b [] 0
| RF_yes r rs n toks m l : words r toks -> relay_record toks m l b -> relays_for b rs n -> relays_for b (r :: rs) (S n)
| RF_no r rs n : (forall toks m l, words r toks -> ~ relay_record toks m l b) -> relays_for b rs n -> relays_for b (r :: rs) n.
(** All documented keys. *)
Definition documented : list string :=
  flat_map (fun p => map f_key (snd p)) (Layout.generator_models ++ Layout.relay_models ++ Layout.branch_relay_models ++ Layout.load_models).
(** Slots no record is meant to change: plain ones other than the number of relays, and indexed ones with another name. *)
Definition elsewhere (s : slot) : Prop :=
  match s with
  | Plain k => ~ In ":"%char (list_ascii_of_string k) /\ k <> "RELAY_NUMBER"
  | Indexed k _ => ~ In k documented
  end.
(** A word that mentions bus [b] where a record may have its bus. *)
Definition mentions (toks : list str) (b : Z) : Prop := number toks 0 b \/ number toks 3 b.
