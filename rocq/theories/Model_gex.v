(* The methods of the activity coefficient liquid as functions of the state, with the data passed in the way the class does it
   (thermo/phases/gibbs_excess.py). *)
From Coq Require Import Reals.
From Verif Require Import Base Spec_phase Spec_gex Gen_gex.
Open Scope R_scope.
Section Methods.
Variable L : liquid.
Notation N := (n_comp L). Notation z := (zs_ L). Notation b1 := (poynting L). Notation b2 := (phi_sat L). Notation b3 := (hvap_caloric L). Notation b4 := (ideal L).
Notation ps T := (fun i => psat L i T). Notation ps1 T := (fun i => psat1 L i T). Notation ps2 T := (fun i => psat2 L i T).
Notation vs T := (fun i => vsat L i T). Notation vs1 T := (fun i => vsat1 L i T). Notation vs2 T := (fun i => vsat2 L i T).
(* thermo/phases/gibbs_excess.py, lines 1759-1761, 1798-1800, 1820-1822: phis_sat, dphis_sat_dT, d2phis_sat_dT2 are 1, 0, 0 unless use_phis_sat *)
Definition phis_sat T : nat -> R := fun i => if b2 then fsat L i T else 1.
Definition dphis_sat_dT T : nat -> R := fun i => if b2 then fsat1 L i T else 0.
Definition d2phis_sat_dT2 T : nat -> R := fun i => if b2 then fsat2 L i T else 0.
(* lines 1050-1085, 1150-1186, 1188-1233: lnPsats, dPsats_dT_over_Psats, d2Psats_dT2_over_Psats *)
Definition lnPsats T : nat -> R := fun i => ln (psat L i T).
Definition dPsats_dT_over_Psats T : nat -> R := fun i => psat1 L i T / psat L i T.
Definition d2Psats_dT2_over_Psats T : nat -> R := fun i => psat2 L i T / psat L i T.
(* thermo/activity.py: the excess enthalpy, entropy and heat capacity and dSE_dT of the activity model *)
Definition HE T : R := ge L T - T * ge1 L T.
Definition SE T : R := - ge1 L T.
Definition CpE T : R := - T * ge2 L T.
Definition dSE_dT T : R := - ge2 L T.
Definition Poyntings T P := GX_Poyntings N b1 T P (ps T) (vs T).
Definition dPoyntings_dT T P := GX_dPoyntings_dT N b1 T P (ps T) (ps1 T) (vs T) (vs1 T).
Definition d2Poyntings_dT2 T P := GX_d2Poyntings_dT2 N b1 T P (ps T) (ps1 T) (ps2 T) (vs T) (vs1 T) (vs2 T).
Definition dPoyntings_dP T P := GX_dPoyntings_dP N b1 T P (ps T) (vs T).
Definition d2Poyntings_dPdT T P := GX_d2Poyntings_dPdT N b1 T P (ps T) (ps1 T) (vs T) (vs1 T).
Definition phis T P := GX_phis N b1 T P (ps T) (vs T) (phis_sat T) (fun i => gam L i T).
Definition dphis_dT T P := GX_dphis_dT N b1 b2 T P (ps T) (ps1 T) (vs T) (vs1 T) (phis_sat T) (dphis_sat_dT T) (fun i => gam L i T) (fun i => gam1 L i T).
Definition dlnphis_dT T P := GX_dlnphis_dT N b1 b2 T P (ps T) (ps1 T) (vs T) (vs1 T) (phis_sat T) (dphis_sat_dT T) (fun i => gam L i T) (fun i => gam1 L i T).
Definition dlnphis_dP T P := GX_dlnphis_dP N b1 T P (ps T) (vs T).
Definition lq_H : property := fun T P => GX_H N b1 b2 b3 b4 T P z (ps T) (ps1 T) (dPsats_dT_over_Psats T) (vs T) (vs1 T) (phis_sat T) (dphis_sat_dT T) (fun i => cpig_int L i T) (fun i => hvap L i T) (HE T).
Definition lq_S : property := fun T P => GX_S N b1 b2 b3 b4 T P (1 / P_ref L) z (log_z L) (ps T) (ps1 T) (lnPsats T) (dPsats_dT_over_Psats T) (vs T) (vs1 T) (phis_sat T) (dphis_sat_dT T) (fun i => cpig_int_T L i T) (fun i => hvap L i T) (SE T).
Definition lq_Cp : property := fun T P => GX_Cp N b1 b2 b4 T P z (ps T) (ps1 T) (ps2 T) (dPsats_dT_over_Psats T) (d2Psats_dT2_over_Psats T) (vs T) (vs1 T) (vs2 T) (phis_sat T) (dphis_sat_dT T) (d2phis_sat_dT2 T) (fun i => cpig L i T) (CpE T).
Definition lq_dS_dT : property := fun T P => GX_dS_dT N b1 b2 b4 T P z (ps T) (ps1 T) (ps2 T) (dPsats_dT_over_Psats T) (d2Psats_dT2_over_Psats T) (vs T) (vs1 T) (vs2 T) (phis_sat T) (dphis_sat_dT T) (d2phis_sat_dT2 T) (fun i => cpig L i T) (dSE_dT T).
Definition lq_dH_dP : property := fun T P => GX_dH_dP N b1 T P z (ps T) (ps1 T) (vs T) (vs1 T).
Definition lq_dS_dP : property := fun T P => GX_dS_dP N b1 T P z (ps T) (ps1 T) (vs T) (vs1 T).
Definition lq_V : property := fun T P => GX_V N z (vs T).
Definition lq_dV_dT : property := fun T P => GX_dV_dT N z (vs1 T).
Definition lq_d2V_dT2 : property := fun T P => GX_d2V_dT2 N z (vs2 T).
End Methods.

(* thermo/phases/gibbs_excess.py, lines 453-494: the flags set by the constructor from equilibrium_basis and caloric_basis. Other is any
   other string: the flags are then not set (None). The flags use_Poynting_caloric and use_phis_sat_caloric are left out: no method reads them. *)
Inductive basis := Poynting | Poynting_PhiSat | PhiSat | Psat | Hvap | Other.
Definition equilibrium_flags (b : option basis) (use_Poynting use_phis_sat : bool) : option (bool * bool) :=
  match b with
  | Some Poynting => Some (true, false) | Some Poynting_PhiSat => Some (true, true) | Some PhiSat => Some (false, true) | Some Psat => Some (false, false)
  | Some Hvap | Some Other => None
  | None => Some (use_Poynting, use_phis_sat)
  end.
Definition caloric_flag (b : option basis) (use_Hvap_caloric : bool) : option bool :=
  match b with
  | Some Poynting | Some Poynting_PhiSat | Some PhiSat | Some Psat => Some false | Some Hvap => Some true | Some Other => None
  | None => Some use_Hvap_caloric
  end.
Definition set_flags (L : liquid) (b1 b2 b3 : bool) : liquid :=
  {| n_comp := n_comp L; zs_ := zs_ L; log_z := log_z L; psat := psat L; psat1 := psat1 L; psat2 := psat2 L; vsat := vsat L; vsat1 := vsat1 L; vsat2 := vsat2 L;
     fsat := fsat L; fsat1 := fsat1 L; fsat2 := fsat2 L; gam := gam L; gam1 := gam1 L; cpig := cpig L; cpig_int := cpig_int L; cpig_int_T := cpig_int_T L;
     ge := ge L; ge1 := ge1 L; ge2 := ge2 L; hvap := hvap L; P_ref := P_ref L; poynting := b1; phi_sat := b2; hvap_caloric := b3; ideal := ideal L |}.
(* the phase object made with the data L, None when a flag is missing *)
Definition construct (L : liquid) (equilibrium_basis caloric_basis : option basis) (use_Poynting use_phis_sat use_Hvap_caloric : bool) : option liquid :=
  match equilibrium_flags equilibrium_basis use_Poynting use_phis_sat, caloric_flag caloric_basis use_Hvap_caloric with
  | Some (b1, b2), Some b3 => Some (set_flags L b1 b2 b3)
  | _, _ => None
  end.
(* lines 577-605: to; the attributes T and P of the new phase (None: not set), None when ValueError is raised. The secant solvers of the
   volume equation are the parameters *)
Definition to_state (solve_P solve_T : R -> R -> R) (T P V : option R) : option (option R * option R) :=
  match T, P, V with
  | Some t, Some p, _ => Some (Some t, Some p)
  | Some t, None, Some v => Some (None, Some (solve_P t v))
  | Some t, None, None => Some (None, None)
  | None, Some p, Some v => Some (Some (solve_T p v), None)
  | None, _, _ => None
  end.
(* lines 565-575: to_TP_zs *)
Definition to_TP_state (T P : R) : option (option R * option R) := Some (Some T, Some P).
