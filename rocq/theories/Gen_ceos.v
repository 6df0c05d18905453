(* Generated by tools/gen_ceos.py from thermo/phases/ceos.py: the methods of CEOSGas and CEOSLiquid which read a root of the
   equation of state. Line numbers of each method are given. phase and phi_pures are not in the tables. *)
From Coq Require Import String List.
Import ListNotations.
Open Scope string_scope.

(* what is read from eos_mix: an attribute, a method called with a compressibility factor, a method called with a phase *)
Inductive source := Attr (name : string) | CallZ (method z : string) | CallPhase (method phase : string).
(* try: return first; except: return second. The last argument is true when the handler is bare, false when it is AttributeError *)
Inductive body := Try (first second : source) (bare : bool).

(* thermo/phases/ceos.py, lines 593-877: class CEOSGas *)
Definition CEOSGas_methods : list (string * body) := [
  (* 605-609 *) ("PIP", Try (Attr "PIP_g") (Attr "PIP_l") false);
  (* 611-615 *) ("lnphis", Try (CallZ "fugacity_coefficients" "Z_g") (CallZ "fugacity_coefficients" "Z_l") false);
  (* 617-621 *) ("dlnphis_dT", Try (CallPhase "dlnphis_dT" "g") (CallPhase "dlnphis_dT" "l") true);
  (* 623-627 *) ("dlnphis_dP", Try (CallPhase "dlnphis_dP" "g") (CallPhase "dlnphis_dP" "l") true);
  (* 629-634 *) ("dlnphis_dns", Try (CallZ "dlnphis_dns" "Z_g") (CallZ "dlnphis_dns" "Z_l") true);
  (* 636-641 *) ("dlnphis_dzs", Try (CallZ "dlnphis_dzs" "Z_g") (CallZ "dlnphis_dzs" "Z_l") true);
  (* 658-662 *) ("H_dep", Try (Attr "H_dep_g") (Attr "H_dep_l") false);
  (* 664-668 *) ("S_dep", Try (Attr "S_dep_g") (Attr "S_dep_l") false);
  (* 670-674 *) ("G_dep", Try (Attr "G_dep_g") (Attr "G_dep_l") false);
  (* 676-680 *) ("Cp_dep", Try (Attr "Cp_dep_g") (Attr "Cp_dep_l") false);
  (* 682-686 *) ("dS_dep_dT", Try (Attr "dS_dep_dT_g") (Attr "dS_dep_dT_l") false);
  (* 688-693 *) ("dS_dep_dP_V", Try (Attr "dS_dep_dP_g_V") (Attr "dS_dep_dP_l_V") false);
  (* 695-699 *) ("dS_dep_dP_T", Try (Attr "dS_dep_dP_g") (Attr "dS_dep_dP_l") false);
  (* 701-705 *) ("dS_dep_dT_V", Try (Attr "dS_dep_dT_g_V") (Attr "dS_dep_dT_l_V") false);
  (* 707-711 *) ("dH_dep_dP_V", Try (Attr "dH_dep_dP_g_V") (Attr "dH_dep_dP_l_V") false);
  (* 713-717 *) ("dH_dep_dP_T", Try (Attr "dH_dep_dP_g") (Attr "dH_dep_dP_l") false);
  (* 719-723 *) ("dH_dep_dV_T", Try (Attr "dH_dep_dV_g_T") (Attr "dH_dep_dV_l_T") false);
  (* 725-729 *) ("dH_dep_dV_P", Try (Attr "dH_dep_dV_g_P") (Attr "dH_dep_dV_l_P") false);
  (* 731-735 *) ("V", Try (Attr "V_g") (Attr "V_l") false);
  (* 737-741 *) ("dP_dT", Try (Attr "dP_dT_g") (Attr "dP_dT_l") false);
  (* 745-749 *) ("dP_dV", Try (Attr "dP_dV_g") (Attr "dP_dV_l") false);
  (* 753-757 *) ("d2P_dT2", Try (Attr "d2P_dT2_g") (Attr "d2P_dT2_l") false);
  (* 761-765 *) ("d2P_dV2", Try (Attr "d2P_dV2_g") (Attr "d2P_dV2_l") false);
  (* 769-773 *) ("d2P_dTdV", Try (Attr "d2P_dTdV_g") (Attr "d2P_dTdV_l") false);
  (* 778-782 *) ("d2T_dV2", Try (Attr "d2T_dV2_g") (Attr "d2T_dV2_l") false);
  (* 786-790 *) ("d2V_dT2", Try (Attr "d2V_dT2_g") (Attr "d2V_dT2_l") false);
  (* 794-800 *) ("dV_dzs", Try (CallZ "dV_dzs" "Z_g") (CallZ "dV_dzs" "Z_l") false);
  (* 802-808 *) ("dV_dns", Try (CallZ "dV_dns" "Z_g") (CallZ "dV_dns" "Z_l") false);
  (* 810-816 *) ("dnV_dns", Try (CallZ "dnV_dns" "Z_g") (CallZ "dnV_dns" "Z_l") false);
  (* 818-822 *) ("d2H_dep_dT2", Try (Attr "d2H_dep_dT2_g") (Attr "d2H_dep_dT2_l") false);
  (* 824-828 *) ("d2H_dep_dT2_V", Try (Attr "d2H_dep_dT2_g_V") (Attr "d2H_dep_dT2_l_V") false);
  (* 830-834 *) ("d2H_dTdP", Try (Attr "d2H_dep_dTdP_g") (Attr "d2H_dep_dTdP_l") false);
  (* 836-840 *) ("dH_dep_dT_V", Try (Attr "dH_dep_dT_g_V") (Attr "dH_dep_dT_l_V") true);
  (* 842-846 *) ("dH_dep_dzs", Try (CallZ "dH_dep_dzs" "Z_g") (CallZ "dH_dep_dzs" "Z_l") false);
  (* 849-853 *) ("d2P_dTdP", Try (Attr "d2P_dTdP_g") (Attr "d2P_dTdP_l") false);
  (* 855-859 *) ("d2P_dVdP", Try (Attr "d2P_dVdP_g") (Attr "d2P_dVdP_l") false);
  (* 861-865 *) ("d2P_dVdT_TP", Try (Attr "d2P_dVdT_TP_g") (Attr "d2P_dVdT_TP_l") false);
  (* 867-871 *) ("d2P_dT2_PV", Try (Attr "d2P_dT2_PV_g") (Attr "d2P_dT2_PV_l") false);
  (* 873-877 *) ("dS_dep_dzs", Try (CallZ "dS_dep_dzs" "Z_g") (CallZ "dS_dep_dzs" "Z_l") false)
].
(* thermo/phases/ceos.py, lines 593-877: other names for the same methods *)
Definition CEOSGas_aliases : list (string * string) := [
  (* 743 *) ("dP_dT_V", "dP_dT");
  (* 751 *) ("dP_dV_T", "dP_dV");
  (* 759 *) ("d2P_dT2_V", "d2P_dT2");
  (* 767 *) ("d2P_dV2_T", "d2P_dV2");
  (* 784 *) ("d2T_dV2_P", "d2T_dV2");
  (* 792 *) ("d2V_dT2_P", "d2V_dT2")
].

(* thermo/phases/ceos.py, lines 880-1166: class CEOSLiquid *)
Definition CEOSLiquid_methods : list (string * body) := [
  (* 892-896 *) ("PIP", Try (Attr "PIP_l") (Attr "PIP_g") false);
  (* 898-902 *) ("lnphis", Try (CallZ "fugacity_coefficients" "Z_l") (CallZ "fugacity_coefficients" "Z_g") false);
  (* 904-908 *) ("dlnphis_dT", Try (CallPhase "dlnphis_dT" "l") (CallPhase "dlnphis_dT" "g") true);
  (* 910-914 *) ("dlnphis_dP", Try (CallPhase "dlnphis_dP" "l") (CallPhase "dlnphis_dP" "g") true);
  (* 916-921 *) ("dlnphis_dns", Try (CallZ "dlnphis_dns" "Z_l") (CallZ "dlnphis_dns" "Z_g") true);
  (* 923-928 *) ("dlnphis_dzs", Try (CallZ "dlnphis_dzs" "Z_l") (CallZ "dlnphis_dzs" "Z_g") true);
  (* 945-949 *) ("H_dep", Try (Attr "H_dep_l") (Attr "H_dep_g") false);
  (* 951-955 *) ("S_dep", Try (Attr "S_dep_l") (Attr "S_dep_g") false);
  (* 957-961 *) ("G_dep", Try (Attr "G_dep_l") (Attr "G_dep_g") false);
  (* 963-967 *) ("Cp_dep", Try (Attr "Cp_dep_l") (Attr "Cp_dep_g") false);
  (* 969-973 *) ("dS_dep_dT", Try (Attr "dS_dep_dT_l") (Attr "dS_dep_dT_g") false);
  (* 975-980 *) ("dS_dep_dP_V", Try (Attr "dS_dep_dP_l_V") (Attr "dS_dep_dP_g_V") false);
  (* 982-986 *) ("dS_dep_dP_T", Try (Attr "dS_dep_dP_l") (Attr "dS_dep_dP_g") false);
  (* 988-992 *) ("dS_dep_dT_V", Try (Attr "dS_dep_dT_l_V") (Attr "dS_dep_dT_g_V") false);
  (* 994-998 *) ("dH_dep_dP_V", Try (Attr "dH_dep_dP_l_V") (Attr "dH_dep_dP_g_V") false);
  (* 1000-1004 *) ("dH_dep_dP_T", Try (Attr "dH_dep_dP_l") (Attr "dH_dep_dP_g") false);
  (* 1006-1010 *) ("dH_dep_dV_T", Try (Attr "dH_dep_dV_l_T") (Attr "dH_dep_dV_g_T") false);
  (* 1012-1016 *) ("dH_dep_dV_P", Try (Attr "dH_dep_dV_l_P") (Attr "dH_dep_dV_g_P") false);
  (* 1018-1022 *) ("V", Try (Attr "V_l") (Attr "V_g") false);
  (* 1024-1028 *) ("dP_dT", Try (Attr "dP_dT_l") (Attr "dP_dT_g") false);
  (* 1032-1036 *) ("dP_dV", Try (Attr "dP_dV_l") (Attr "dP_dV_g") false);
  (* 1040-1044 *) ("d2P_dT2", Try (Attr "d2P_dT2_l") (Attr "d2P_dT2_g") false);
  (* 1048-1052 *) ("d2P_dV2", Try (Attr "d2P_dV2_l") (Attr "d2P_dV2_g") false);
  (* 1056-1060 *) ("d2P_dTdV", Try (Attr "d2P_dTdV_l") (Attr "d2P_dTdV_g") false);
  (* 1065-1069 *) ("d2T_dV2", Try (Attr "d2T_dV2_l") (Attr "d2T_dV2_g") false);
  (* 1073-1077 *) ("d2V_dT2", Try (Attr "d2V_dT2_l") (Attr "d2V_dT2_g") false);
  (* 1081-1087 *) ("dV_dzs", Try (CallZ "dV_dzs" "Z_l") (CallZ "dV_dzs" "Z_g") false);
  (* 1089-1095 *) ("dV_dns", Try (CallZ "dV_dns" "Z_l") (CallZ "dV_dns" "Z_g") false);
  (* 1097-1103 *) ("dnV_dns", Try (CallZ "dnV_dns" "Z_l") (CallZ "dnV_dns" "Z_g") false);
  (* 1105-1109 *) ("d2H_dep_dT2", Try (Attr "d2H_dep_dT2_l") (Attr "d2H_dep_dT2_g") false);
  (* 1111-1115 *) ("d2H_dep_dT2_V", Try (Attr "d2H_dep_dT2_l_V") (Attr "d2H_dep_dT2_g_V") false);
  (* 1119-1123 *) ("d2H_dTdP", Try (Attr "d2H_dep_dTdP_l") (Attr "d2H_dep_dTdP_g") false);
  (* 1125-1129 *) ("dH_dep_dT_V", Try (Attr "dH_dep_dT_l_V") (Attr "dH_dep_dT_g_V") true);
  (* 1131-1135 *) ("dH_dep_dzs", Try (CallZ "dH_dep_dzs" "Z_l") (CallZ "dH_dep_dzs" "Z_g") false);
  (* 1138-1142 *) ("d2P_dTdP", Try (Attr "d2P_dTdP_l") (Attr "d2P_dTdP_g") false);
  (* 1144-1148 *) ("d2P_dVdP", Try (Attr "d2P_dVdP_l") (Attr "d2P_dVdP_g") false);
  (* 1150-1154 *) ("d2P_dVdT_TP", Try (Attr "d2P_dVdT_TP_l") (Attr "d2P_dVdT_TP_g") false);
  (* 1156-1160 *) ("d2P_dT2_PV", Try (Attr "d2P_dT2_PV_l") (Attr "d2P_dT2_PV_g") false);
  (* 1162-1166 *) ("dS_dep_dzs", Try (CallZ "dS_dep_dzs" "Z_l") (CallZ "dS_dep_dzs" "Z_g") false)
].
(* thermo/phases/ceos.py, lines 880-1166: other names for the same methods *)
Definition CEOSLiquid_aliases : list (string * string) := [
  (* 1030 *) ("dP_dT_V", "dP_dT");
  (* 1038 *) ("dP_dV_T", "dP_dV");
  (* 1046 *) ("d2P_dT2_V", "d2P_dT2");
  (* 1054 *) ("d2P_dV2_T", "d2P_dV2");
  (* 1071 *) ("d2T_dV2_P", "d2T_dV2");
  (* 1079 *) ("d2V_dT2_P", "d2V_dT2")
].
