(* Model of thermo/stream.py: the calculated views of StreamArgs (zs_calc, ns_calc, ...), its cached flash, and the flow
   variables computed by EquilibriumStream. Same conventions as Model_stream. *)
From Coq Require Import Reals List Bool Arith.
From Verif Require Import Base Model_stream.
Import ListNotations.
Open Scope R_scope.

(* value or exception *)
Inductive res (A : Type) : Type := Ok (a : A) | Err.
Arguments Ok {A}. Arguments Err {A}.
Definition bind {A B} (r : res A) (f : A -> res B) : res B := match r with Ok a => f a | Err => Err end.

Fixpoint map2 (f : R -> R -> R) (a b : list R) : list R :=
  match a, b with x :: a, y :: b => f x y :: map2 f a b | _, _ => [] end.
Definition anyzero (l : list R) : bool := existsb (fun x => Reqb x 0) l.

(* ---- functions of the external packages, as documented there; None is ZeroDivisionError ---- *)
(* fluids.numerics.normalize *)
Definition normalize (l : list R) : option (list R) :=
  if Reqb (lsum l) 0 then None else Some (map (fun x => x / lsum l) l).
(* chemicals.utils.ws_to_zs / zs_to_ws *)
Definition ws_to_zs (ws MWs : list R) : option (list R) :=
  if anyzero MWs then None else normalize (map2 Rdiv ws MWs).
Definition zs_to_ws (zs MWs : list R) : option (list R) := normalize (map2 Rmult zs MWs).
(* chemicals.utils.Vfs_to_zs / zs_to_Vfs *)
Definition Vfs_to_zs (Vfs Vms : list R) : option (list R) :=
  if anyzero Vms then None else normalize (map2 Rdiv Vfs Vms).
Definition zs_to_Vfs (zs Vms : list R) : option (list R) := normalize (map2 Rmult zs Vms).
(* chemicals.utils.mixing_simple *)
Definition mixing_simple (fracs props : list R) : R := lsum (map2 Rmult fracs props).
(* chemicals.utils.property_molar_to_mass / property_mass_to_molar *)
Definition property_molar_to_mass (A MW : R) : option R := if Reqb MW 0 then None else Some (A * 1000 / MW).
Definition property_mass_to_molar (A MW : R) : R := A * MW / 1000.

Definition lift {A} (o : option A) : res A := match o with Some a => Ok a | None => Err end.

(* the specification of a flash: the keyword arguments of flasher.flash in thermo/stream.py 1872-1879 *)
Record fspec : Type := mkfspec { fsc : sf -> option R; fzs : list R }.
(* what StreamArgs uses of its flasher: constants.MWs, V_liquids_ref(), settings.T_gas_ref/P_gas_ref, flash(...) (Err when
   it raises; a function of the specification, so hot_start is taken to affect only the path to the answer), V() and
   H() of a flash result; V_TP is the molar volume of flash/liquids[0]/gas at an explicit T, P (lines 978-985) *)
Record flasher : Type := mkflasher {
  MWs : list R; Vls : list R; T_gas_ref : R; P_gas_ref : R;
  flash : fspec -> res nat; res_V : nat -> R; res_H : nat -> R; V_TP : R * R -> list R -> res R }.

(* the whole object: specifications, flasher, Q_TP, and the two cache attributes *)
Definition cachekey : Type := (sf -> option R) * list R.
Record obj : Type := mkobj { spec : args; fl : option flasher; Q_TP : option (R * R); cache : option (cachekey * nat) }.

Section Calc.
Variable o : obj.
Let s := spec o.
Definition withfl {A} (f : flasher -> res A) : res A := match fl o with Some F => f F | None => Err end.
(* arithmetic over a list with an unknown entry is a TypeError *)
Definition full (l : vec) : res (list R) := if complete l then Ok (vals l) else Err.
Definition somes (l : list R) : vec := map Some l.

(* StreamArgs.zs_calc, thermo/stream.py 753-802 *)
Definition zs_calc : res (option vec) :=
  let rest5 := match ls s f_Qgs with
    | Some l => if complete l then bind (lift (normalize (vals l))) (fun z => Ok (Some (somes z))) else Ok None
    | None => Ok None end in
  let rest4 := match ls s f_Qls with
    | Some l => if complete l then withfl (fun F => bind (lift (normalize (vals l))) (fun q =>
          bind (lift (Vfs_to_zs q (Vls F))) (fun z => Ok (Some (somes z))))) else rest5
    | None => rest5 end in
  let rest3 := match ls s f_ms with
    | Some l => if complete l then withfl (fun F => bind (lift (normalize (vals l))) (fun q =>
          bind (lift (ws_to_zs q (MWs F))) (fun z => Ok (Some (somes z))))) else rest4
    | None => rest4 end in
  let rest2 := match ls s f_Vfgs with Some l => if complete l then Ok (Some l) else rest3 | None => rest3 end in
  let rest1 := match ls s f_Vfls with
    | Some l => if complete l then withfl (fun F =>
          match Vfs_to_zs (vals l) (Vls F) with Some z => Ok (Some (somes z)) | None => rest2 end) else rest2
    | None => rest2 end in
  let rest0 := match ls s f_ws with
    | Some l => if complete l then withfl (fun F =>
          match ws_to_zs (vals l) (MWs F) with Some z => Ok (Some (somes z)) | None => rest1 end) else rest1
    | None => rest1 end in
  match ls s f_zs with
  | Some z => if multi s then (if complete z then Ok (Some z) else Ok None) else Ok (Some z)
  | None =>
      match ls s f_ns with
      | Some l => if multi s then rest0
                  else bind (full l) (fun l => bind (lift (normalize l)) (fun z => Ok (Some (somes z))))
      | None => rest0
      end
  end.

(* zs_calc, then arithmetic on it: a missing composition or entry is a TypeError *)
Definition zs_full : res (list R) := bind zs_calc (fun z => match z with Some z => full z | None => Err end).

(* StreamArgs.ns_calc, thermo/stream.py 918-993. flashed is the outcome of self.flash_state() (only used for Q) *)
Definition ns_calc (flashed : res (option nat)) : res (option vec) :=
  let V_gas F := Rgas * T_gas_ref F / P_gas_ref F in
  let restQ := match sc s f_Q with
    | Some Q => bind zs_calc (fun z => match z with None => Ok None | Some z => bind (full z) (fun z =>
        bind (match Q_TP o with
              | Some tp => withfl (fun F => V_TP F tp z)
              | None => bind flashed (fun m => match m with Some m => withfl (fun F => Ok (res_V F m)) | None => Err end)
              end) (fun V => if Reqb V 0 then Err else Ok (Some (somes (map (fun x => Q / V * x) z))))) end)
    | None => Ok None end in
  let restQg := match sc s f_Qg with
    | Some Qg => withfl (fun F => if Reqb (P_gas_ref F) 0 then Err else if Reqb (V_gas F) 0 then Err else
        bind zs_full (fun z => Ok (Some (somes (map (fun x => x * (Qg / V_gas F)) z)))))
    | None => restQ end in
  let restQgs := match ls s f_Qgs with
    | Some l => if complete l then withfl (fun F => if Reqb (P_gas_ref F) 0 then Err else if Reqb (V_gas F) 0 then Err else
        Ok (Some (somes (map (fun q => q / V_gas F) (vals l))))) else restQg
    | None => restQg end in
  let restQl := match sc s f_Ql with
    | Some Ql => withfl (fun F => bind zs_full (fun z => bind (lift (zs_to_Vfs z (Vls F))) (fun Vfs =>
        if anyzero (Vls F) then Err else Ok (Some (somes (map2 (fun Vm Vf => Ql * Vf / Vm) (Vls F) Vfs))))))
    | None => restQgs end in
  let restQls := match ls s f_Qls with
    | Some l => if complete l then withfl (fun F => if anyzero (Vls F) then Err else
        Ok (Some (somes (map2 (fun Vm q => q / Vm) (Vls F) (vals l))))) else restQl
    | None => restQl end in
  let restms := match ls s f_ms with
    | Some l => if complete l then withfl (fun F => bind zs_full (fun z =>
        let MW := mixing_simple (MWs F) z in
        if Reqb MW 0 then Err else Ok (Some (somes (map (fun x => lsum (vals l) * 1000 / MW * x) z))))) else restQls
    | None => restQls end in
  let restm := match sc s f_m with
    | Some m => bind zs_calc (fun z => match z with None => restms | Some z => bind (full z) (fun z => withfl (fun F =>
        bind (lift (property_molar_to_mass m (mixing_simple (MWs F) z))) (fun n =>
          Ok (Some (somes (map (fun x => n * x) z)))))) end)
    | None => restms end in
  let restn := match sc s f_n with
    | Some n => bind zs_calc (fun z => match z with None => restm
        | Some z => bind (full z) (fun z => Ok (Some (somes (map (fun x => n * x) z)))) end)
    | None => restm end in
  match ls s f_ns with
  | Some l => if multi s then (if complete l then Ok (Some l) else Ok None) else Ok (Some l)
  | None => restn
  end.

(* StreamArgs.n_calc, thermo/stream.py 1129-1143 *)
Definition n_calc (flashed : res (option nat)) : res (option R) :=
  match sc s f_n with
  | Some n => Ok (Some n)
  | None =>
      let rest := bind (ns_calc flashed) (fun l => match l with
        | Some l => if complete l then Ok (Some (lsum (vals l))) else Ok None | None => Ok None end) in
      match ls s f_ns with
      | Some l => if complete l then Ok (Some (lsum (vals l))) else rest
      | None => rest
      end
  end.

(* StreamArgs.flash_state, thermo/stream.py 1790-1882: the keyword arguments handed to flasher.flash. When energy needs
   n_calc and n_calc needs the volume of the flash itself, the code recurses without end (RecursionError): Err *)
Definition spec_count_vars : list sf :=
  [f_T; f_P; f_V; f_rho; f_rho_mass; f_H_mass; f_H; f_S_mass; f_S; f_U_mass; f_U; f_G_mass; f_G; f_A_mass; f_A;
   f_H_reactive; f_VF].
Definition divide (e n : R) : res R := if Reqb n 0 then Err else Ok (e / n).
Definition flash_H : res (option R * option R) :=
  if Nat.ltb (length (filter (fun k => isSome (sc s k)) spec_count_vars)) 2 then
    bind (match sc s f_energy with
          | None => Ok None
          | Some e => bind (n_calc Err) (fun n => match n with Some n => bind (divide e n) (fun h => Ok (Some h)) | None => Ok None end)
          end) (fun H =>
    bind (match sc s f_energy_reactive with
          | None => Ok None
          | Some e => bind (n_calc Err) (fun n => match n with Some n => bind (divide e n) (fun h => Ok (Some h)) | None => Ok None end)
          end) (fun Hr => Ok (H, Hr)))
  else Ok (None, None).
Definition orelse {A} (a b : option A) : option A := match a with Some x => Some x | None => b end.

(* arguments of the flash as a function of the stored specifications *)
Definition flash_args : res fspec :=
  bind zs_calc (fun z => match z with None => Err | Some z => bind (full z) (fun z =>
  bind flash_H (fun HH =>
    Ok (mkfspec (fun k => match k with
         | f_H => orelse (sc s f_H) (fst HH)
         | f_H_reactive => orelse (sc s f_H_reactive) (snd HH)
         | f_energy | f_energy_reactive | f_n | f_m | f_Q | f_Ql | f_Qg => None
         | k => sc s k end) z))) end).
(* the cache key, lines 1863-1865, as a function of the same arguments: H and H_reactive both as stored and as
   computed, every other argument but H_mass. (The two stored values are kept under f_energy and f_energy_reactive.) *)
Definition flash_key (a : fspec) : cachekey :=
  (fun k => match k with
     | f_H_mass => None
     | f_energy => sc s f_H
     | f_energy_reactive => sc s f_H_reactive
     | k => fsc a k end, fzs a).
End Calc.

Definition oeqb (a b : option R) : bool :=
  match a, b with Some x, Some y => Reqb x y | None, None => true | _, _ => false end.
Fixpoint leqb (a b : list R) : bool :=
  match a, b with [] , [] => true | x :: a, y :: b => Reqb x y && leqb a b | _, _ => false end.
Definition all_sf : list sf :=
  [f_T; f_P; f_V; f_rho; f_rho_mass; f_VF; f_H; f_H_mass; f_S; f_S_mass; f_U; f_U_mass; f_A; f_A_mass; f_G; f_G_mass;
   f_energy; f_energy_reactive; f_H_reactive; f_n; f_m; f_Q; f_Ql; f_Qg].
Definition key_eqb (a b : cachekey) : bool :=
  forallb (fun k => oeqb (fst a k) (fst b k)) all_sf && leqb (snd a) (snd b).

(* StreamArgs.flash_state, thermo/stream.py 1804-1882: the outcome and the object afterwards (its cache) *)
Definition flash_state (o : obj) : res (option nat) * obj :=
  if (composition_specified (spec o) && state_specified (spec o))%bool then
    match flash_args o with
    | Err => (Err, o)
    | Ok a =>
        let miss := match fl o with
          | None => (Err, o)
          | Some F => match flash F a with
              | Err => (Err, o)
              | Ok m => (Ok (Some m), mkobj (spec o) (fl o) (Q_TP o) (Some (flash_key o a, m)))
              end
          end in
        match cache o with
        | Some (k, m) => if key_eqb (flash_key o a) k then (Ok (Some m), o) else miss
        | None => miss
        end
    end
  else (Ok None, o).

(* StreamArgs.ws_calc 828-836, Vfls_calc 863-872, ms_calc 1013-1024, Qls_calc 1044-1050, Qgs_calc 1071-1078, m_calc 1098-1109,
   Ql_calc 1163-1174, Qg_calc 1194-1205 *)
Section Views.
Variable o : obj.
Variable flashed : res (option nat).
Let s := spec o.
Definition ws_calc : res (option vec) :=
  match ls s f_ws with
  | Some w => Ok (Some w)
  | None => bind (zs_calc o) (fun z => match z with None => Ok None | Some z => bind (full z) (fun z =>
      withfl o (fun F => bind (lift (zs_to_ws z (MWs F))) (fun w => Ok (Some (somes w))))) end)
  end.
Definition Vfls_calc : res (option vec) :=
  match ls s f_Vfls with
  | Some w => Ok (Some w)
  | None => bind (zs_calc o) (fun z => match z with None => Ok None | Some z => bind (full z) (fun z =>
      withfl o (fun F => bind (lift (zs_to_Vfs z (Vls F))) (fun w => Ok (Some (somes w))))) end)
  end.
Definition ms_calc : res (option (list R)) :=
  bind (ns_calc o flashed) (fun l => match l with None => Ok None | Some l => bind (full l) (fun ns =>
  bind (zs_full o) (fun z => withfl o (fun F =>
    let MW := mixing_simple (MWs F) z in
    let m := property_mass_to_molar (lsum ns) MW in
    if Reqb MW 0 then Err else Ok (Some (map (fun w => m * w) (map2 (fun zi Mi => zi * Mi * (1 / MW)) z (MWs F))))))) end).
Definition Qls_calc : res (option (list R)) :=
  bind (ns_calc o flashed) (fun l => match l with None => Ok None | Some l => bind (full l) (fun ns =>
    withfl o (fun F => Ok (Some (map2 Rmult ns (Vls F))))) end).
Definition Qgs_calc : res (option (list R)) :=
  bind (ns_calc o flashed) (fun l => match l with None => Ok None | Some l => bind (full l) (fun ns =>
    withfl o (fun F => if Reqb (P_gas_ref F) 0 then Err else Ok (Some (map (fun x => x * (Rgas * T_gas_ref F / P_gas_ref F)) ns)))) end).
Definition total (k : sf) (l : lf) (c : res (option (list R))) : res (option R) :=
  match sc s k with
  | Some x => Ok (Some x)
  | None =>
      let rest := bind c (fun r => match r with Some r => Ok (Some (lsum r)) | None => Ok None end) in
      match ls s l with Some v => if complete v then Ok (Some (lsum (vals v))) else rest | None => rest end
  end.
Definition m_calc : res (option R) := total f_m f_ms ms_calc.
Definition Ql_calc : res (option R) := total f_Ql f_Qls Qls_calc.
Definition Qg_calc : res (option R) := total f_Qg f_Qgs Qgs_calc.
End Views.

(* EquilibriumStream.__init__, thermo/stream.py 2700-2719 and 2721-2726, 2787-2851: composition, molar flow and the flow
   attributes n, m, ns, ms, _ws. Simplifications: Vf_TP and Q_TP not given, energy specs not given; V is self.V(). The count
   checks (lines 2616-2697) are the hypotheses of the theorems. None is an exception. *)
Record flows : Type := mkflows { q_n : R; q_m : R; q_ns : list R; q_ms : list R; q_zs : list R; q_ws : list R }.
Definition eq_stream_zs (F : flasher) (a : lf -> option (list R)) : option (list R) :=
  match a f_ns with Some l => normalize l | None =>
  match a f_ms with Some l => match normalize l with Some w => ws_to_zs w (MWs F) | None => None end | None =>
  match a f_ws with Some l => ws_to_zs l (MWs F) | None =>
  match a f_Vfls with Some v => Vfs_to_zs v (Vls F) | None =>
  match a f_Qls with Some l => match normalize l with Some v => Vfs_to_zs v (Vls F) | None => None end | None =>
  match a f_Qgs with Some l => normalize l | None =>
  match a f_Vfgs with Some l => Some l | None => a f_zs end end end end end end end.
Definition eq_stream_n (F : flasher) (V MW : R) (z : list R) (a : lf -> option (list R)) (b : sf -> option R) : option R :=
  match b f_n with Some n => Some n | None =>
  match b f_m with Some m => property_molar_to_mass m MW | None =>
  match a f_ns with Some l => Some (lsum l) | None =>
  match a f_ms with Some l => property_molar_to_mass (lsum l) MW | None =>
  match b f_Q with Some Q => if Reqb V 0 then None else Some (Q / V) | None =>
  match a f_Qls with Some l => if anyzero (Vls F) then None else Some (lsum (map2 Rdiv l (Vls F))) | None =>
  match b f_Ql with Some Ql =>
      match zs_to_Vfs z (Vls F) with
      | Some v => if anyzero (Vls F) then None else Some (lsum (map2 (fun v Vm => Ql * v / Vm) v (Vls F)))
      | None => None end | None =>
  match b f_Qg with Some Qg => let Vg := Rgas * T_gas_ref F / P_gas_ref F in
      if Reqb Vg 0 then None else Some (lsum (map (fun zi => Qg * zi / Vg) z)) | None =>
  match a f_Qgs with Some l => let Vg := Rgas * T_gas_ref F / P_gas_ref F in if Reqb Vg 0 then None else Some (lsum l / Vg) | None =>
  None end end end end end end end end end.
Definition eq_stream (F : flasher) (V : R) (a : lf -> option (list R)) (b : sf -> option R) : option flows :=
  match eq_stream_zs F a with
  | None => None
  | Some z =>
      let MW := lsum (map2 Rmult z (MWs F)) in
      if Reqb MW 0 then None else
      match eq_stream_n F V MW z a b with
      | None => None
      | Some n =>
          let m := property_mass_to_molar n MW in
          let ws := map2 (fun zi Mi => zi * Mi * (1 / MW)) z (MWs F) in
          Some (mkflows n m (map (fun zi => n * zi) z) (map (fun wi => m * wi) ws) z ws)
      end
  end.
