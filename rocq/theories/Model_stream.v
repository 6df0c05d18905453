(* Model of thermo/stream.py, class StreamArgs: the specification dictionary, its setters, the derived
   composition/flow views and the flash cache.
   Simplifications (all sections): floats are reals; a list-valued specification is a list of optional numbers
   (Python lists, with None for unknown entries; numpy arrays are not modelled); a Python exception is the value
   Err / Raise; values that are not numbers or lists are not modelled. *)
From Coq Require Import Reals List Bool Arith.
From Verif Require Import Base.
Import ListNotations.
Open Scope R_scope.

(* keys of StreamArgs.specifications holding scalars, thermo/stream.py 240-253: the nineteen state
   variables and the five scalar flows *)
Inductive sf : Type :=
  | f_T | f_P | f_V | f_rho | f_rho_mass | f_VF | f_H | f_H_mass | f_S | f_S_mass | f_U | f_U_mass
  | f_A | f_A_mass | f_G | f_G_mass | f_energy | f_energy_reactive | f_H_reactive
  | f_n | f_m | f_Q | f_Ql | f_Qg.
(* keys holding lists, thermo/stream.py 240-241 *)
Inductive lf : Type := f_zs | f_ws | f_Vfls | f_Vfgs | f_ns | f_ms | f_Qls | f_Qgs.

Definition sf_eq_dec (a b : sf) : {a = b} + {a <> b}. Proof. decide equality. Defined.
Definition lf_eq_dec (a b : lf) : {a = b} + {a <> b}. Proof. decide equality. Defined.

Definition vec := list (option R).

(* the object: self.specifications and self.multiple_composition_basis *)
Record args : Type := mkargs { sc : sf -> option R; ls : lf -> option vec; multi : bool }.

Definition isSome {A} (o : option A) : bool := match o with Some _ => true | None => false end.

(* s[k] = v *)
Definition put (s : args) (k : sf) (v : option R) : args :=
  mkargs (fun j => if sf_eq_dec j k then v else sc s j) (ls s) (multi s).
Definition putl (s : args) (k : lf) (v : option vec) : args :=
  mkargs (sc s) (fun j => if lf_eq_dec j k then v else ls s j) (multi s).
(* s[k1] = s[k2] = ... = None *)
Definition clear (s : args) (ks : list sf) : args := fold_left (fun s k => put s k None) ks s.
Definition clearl (s : args) (ks : list lf) : args := fold_left (fun s k => putl s k None) ks s.

(* thermo/stream.py 1562-1565, tuple inside specified_state_vars *)
Definition state_vars18 : list sf :=
  [f_T; f_P; f_V; f_rho; f_rho_mass; f_VF; f_H_mass; f_H; f_S_mass; f_S; f_U_mass; f_U; f_A_mass; f_A;
   f_G_mass; f_G; f_energy; f_energy_reactive].
(* StreamArgs.specified_state_vars, thermo/stream.py 1552-1565 *)
Definition specified_state_vars (s : args) : nat := length (filter (fun k => isSome (sc s k)) state_vars18).
(* StreamArgs.state_specified, thermo/stream.py 1569-1619: the same eighteen and H_reactive, counted one by one *)
Definition state_specified (s : args) : bool :=
  Nat.eqb (length (filter (fun k => isSome (sc s k)) (state_vars18 ++ [f_H_reactive]))) 2.
(* StreamArgs.non_pressure_spec_specified, thermo/stream.py 1622-1639 *)
Definition non_pressure_spec_specified (s : args) : bool :=
  Nat.leb 1 (length (filter (fun k => isSome (sc s k))
    [f_T; f_VF; f_V; f_rho; f_rho_mass; f_H_mass; f_H; f_S_mass; f_S; f_U_mass; f_U; f_A_mass; f_A; f_G_mass; f_G;
     f_energy; f_energy_reactive; f_H_reactive])).
(* StreamArgs.state_specs, thermo/stream.py 1489-1536 (same order; H_reactive is not listed) *)
Definition state_specs (s : args) : list (sf * R) :=
  flat_map (fun k => match sc s k with Some v => [(k, v)] | None => [] end)
    [f_T; f_P; f_V; f_rho; f_rho_mass; f_VF; f_H_mass; f_H; f_S_mass; f_S; f_U_mass; f_U; f_G_mass; f_G; f_A_mass; f_A;
     f_energy; f_energy_reactive].

(* a specification of either kind *)
Inductive key : Type := KS (k : sf) | KL (k : lf).
Definition stored (s : args) (k : key) : bool :=
  match k with KS k => isSome (sc s k) | KL k => isSome (ls s k) end.

(* StreamArgs.composition_spec, thermo/stream.py 1411-1437: the first one stored, in this order *)
Definition composition_order : list lf := [f_zs; f_ws; f_Vfls; f_Vfgs; f_ns; f_ms; f_Qls; f_Qgs].
Definition composition_spec (s : args) : option lf := find (fun k => isSome (ls s k)) composition_order.
(* StreamArgs.flow_spec, thermo/stream.py 1655-1682 *)
Definition flow_order : list key :=
  [KL f_ns; KL f_ms; KL f_Qls; KL f_Qgs; KS f_m; KS f_n; KS f_Q; KS f_Ql; KS f_Qg].
Definition flow_spec (s : args) : option key := find (stored s) flow_order.
(* StreamArgs.specified_flow_vars, thermo/stream.py 1687-1697 *)
Definition specified_flow_vars (s : args) : nat :=
  length (filter (stored s) [KL f_ns; KL f_ms; KL f_Qls; KL f_Qgs; KS f_m; KS f_n; KS f_Q; KS f_Ql; KS f_Qg]).
(* StreamArgs.flow_specified, thermo/stream.py 1700-1727 *)
Definition flow_specified (s : args) : bool :=
  if stored s (KL f_ns) then true else if stored s (KL f_ms) then true else if stored s (KL f_Qls) then true
  else if stored s (KL f_Qgs) then true else if stored s (KS f_m) then true else if stored s (KS f_n) then true
  else if stored s (KS f_Q) then true else if stored s (KS f_Ql) then true else stored s (KS f_Qg).

(* None not in l ; sum(l) of a complete list *)
Definition complete (l : vec) : bool := forallb isSome l.
Definition vals (l : vec) : list R := map (fun o => match o with Some x => x | None => 0 end) l.
Definition lsum (l : list R) : R := fold_right Rplus 0 l.

(* StreamArgs.composition_specified, thermo/stream.py 1448-1469 *)
Definition composition_specified (s : args) : bool :=
  let frac k := match ls s k with Some l => complete l && negb (Reqb (lsum (vals l)) 0) | None => false end in
  let flow k := match ls s k with Some l => complete l | None => false end in
  if frac f_zs then true else if frac f_ws then true else if frac f_Vfls then true else if frac f_Vfgs then true
  else if flow f_ns then true else if flow f_ms then true else if flow f_Qls then true else flow f_Qgs.
(* StreamArgs.clean, thermo/stream.py 1440-1444 *)
Definition clean (s : args) : bool :=
  negb (composition_specified s || negb (Nat.eqb (length (state_specs s)) 0) || flow_specified s).

(* result of a statement: the object after it, or an exception and the object as it was left *)
Inductive out : Type := Done (s : args) | Raised (s : args).

(* setters of T, P, V, rho, rho_mass, VF, H, H_reactive, U, G, A: thermo/stream.py 427-436, 475-484, 490-498,
   504-512, 518-526, 532-540, 547-555, 572-580, 622-630, 650-658, 678-686 *)
Definition set_state_a (k : sf) (v : option R) (s : args) : out :=
  match v with
  | None => Done (put s k None)
  | Some x => if (negb (isSome (sc s k)) && state_specified s)%bool then Raised s else Done (put s k (Some x))
  end.
(* setters of H_mass, U_mass, G_mass, A_mass, S, S_mass: thermo/stream.py 597-605, 636-644, 664-672, 692-700,
   706-714, 720-728 *)
Definition set_state_b (k : sf) (v : option R) (s : args) : out :=
  match v with
  | None => Done (put s k None)
  | Some x => if (Nat.ltb 1 (specified_state_vars s) && negb (isSome (sc s k)))%bool then Raised s
              else Done (put s k (Some x))
  end.
(* setters of energy and energy_reactive: thermo/stream.py 395-405, 411-421 *)
Definition set_energy (k : sf) (v : option R) (s : args) : out :=
  match v with
  | None => Done (put s k None)
  | Some x => if (Nat.ltb 1 (specified_state_vars s) && flow_specified s && negb (isSome (sc s k)))%bool then Raised s
              else Done (put s k (Some x))
  end.
(* setters of m, n, Ql, Qg, Q: thermo/stream.py 1084-1095, 1115-1126, 1149-1160, 1180-1191, 1211-1222 *)
Definition set_flow (k : sf) (v : option R) (s : args) : out :=
  match v with
  | None => Done (put s k None)
  | Some x =>
      match flow_spec s with
      | Some (KS j) => if sf_eq_dec j k then
            Done (put (clear (clearl s [f_Qls; f_ms; f_ns; f_Qgs]) [f_n; f_m; f_Q; f_Ql; f_Qg]) k (Some x))
          else Raised s
      | Some (KL j) => Raised s
      | None => Done (put (clear (clearl s [f_Qls; f_ms; f_ns; f_Qgs]) [f_n; f_m; f_Q; f_Ql; f_Qg]) k (Some x))
      end
  end.
(* setters of zs, ws, Vfls, Vfgs: thermo/stream.py 734-750, 808-825, 842-859, 878-895; an empty list becomes None *)
Definition set_fractions (k : lf) (v : option vec) (s : args) : out :=
  match v with
  | None => Done (putl s k None)
  | Some l =>
      let arg := match l with [] => None | _ => Some l end in
      if multi s then Done (putl s k arg)
      else
        let ok := match composition_spec s with Some j => if lf_eq_dec j k then true else false | None => true end in
        if ok then Done (putl (clearl s (remove lf_eq_dec k composition_order)) k arg) else Raised s
  end.
(* setters of ns (901-915; an empty list becomes None), ms (999-1010), Qls (1030-1041), Qgs (1056-1068) *)
Definition set_flows (k : lf) (v : option vec) (s : args) : out :=
  match v with
  | None => Done (putl s k None)
  | Some l =>
      let arg := match k, l with f_ns, [] => None | _, _ => Some l end in
      if multi s then Done (putl s k arg)
      else Done (putl (clear (clearl s (remove lf_eq_dec k composition_order)) [f_n; f_m; f_Q; f_Ql; f_Qg]) k arg)
  end.
(* StreamArgs.clear_composition_spec, thermo/stream.py 1399-1408 *)
Definition clear_composition_spec (s : args) : args :=
  clearl s [f_ns; f_zs; f_ws; f_Vfls; f_Vfgs; f_ms; f_Qls; f_Qgs].
(* StreamArgs.clear_state_specs, thermo/stream.py 1471-1486 *)
Definition clear_state_specs (s : args) : args :=
  clear s [f_T; f_P; f_V; f_rho; f_rho_mass; f_VF; f_H_mass; f_H; f_S_mass; f_S; f_U_mass; f_U; f_A_mass; f_A;
           f_G_mass; f_G; f_energy; f_energy_reactive].
(* StreamArgs.clear_flow_spec, thermo/stream.py 1642-1652 *)
Definition clear_flow_spec (s : args) : args :=
  clear (clearl s [f_ns; f_ms; f_Qls; f_Qgs]) [f_m; f_n; f_Q; f_Ql; f_Qg].

(* one statement of a history *)
Inductive stmt : Type :=
  | Set_ (k : sf) (v : option R)          (* obj.k = v *)
  | SetList (k : lf) (v : option vec)     (* obj.k = [..] *)
  | ClearComposition | ClearState | ClearFlow.

(* dispatch of an attribute assignment to its setter *)
Definition assign (k : sf) : option R -> args -> out :=
  match k with
  | f_T | f_P | f_V | f_rho | f_rho_mass | f_VF | f_H | f_H_reactive | f_U | f_G | f_A => set_state_a k
  | f_H_mass | f_U_mass | f_G_mass | f_A_mass | f_S | f_S_mass => set_state_b k
  | f_energy | f_energy_reactive => set_energy k
  | f_n | f_m | f_Q | f_Ql | f_Qg => set_flow k
  end.
Definition assign_list (k : lf) : option vec -> args -> out :=
  match k with
  | f_zs | f_ws | f_Vfls | f_Vfgs => set_fractions k
  | f_ns | f_ms | f_Qls | f_Qgs => set_flows k
  end.
Definition exec (c : stmt) (s : args) : out :=
  match c with
  | Set_ k v => assign k v s
  | SetList k v => assign_list k v s
  | ClearComposition => Done (clear_composition_spec s)
  | ClearState => Done (clear_state_specs s)
  | ClearFlow => Done (clear_flow_spec s)
  end.
Definition after (o : out) : args := match o with Done s => s | Raised s => s end.
(* a history in which the caller catches every exception and goes on *)
Definition run (cs : list stmt) (s : args) : args := fold_left (fun s c => after (exec c s)) cs s.

(* StreamArgs.update, thermo/stream.py 1729-1761: the assignments in keyword order, stopping at the first exception *)
Fixpoint update (cs : list stmt) (s : args) : out :=
  match cs with
  | [] => Done s
  | c :: cs => match exec c s with Done s' => update cs s' | Raised s' => Raised s' end
  end.

(* the balance of one total with its list, thermo/stream.py 1340-1354 and 1356-1370: (is it an exception, new list) *)
Definition reconcile_total (tol tot : R) (l : vec) : option vec :=
  let calc := lsum (vals l) in
  match length (filter (fun o => negb (isSome o)) l) with
  | O => if Reqb tot 0 then None else if Rltb tol (Rabs ((calc - tot) / tot)) then None else Some l
  | S O => Some (map (fun o => match o with Some x => Some x | None => Some (tot - calc) end) l)
  | _ => Some l
  end.
(* the check of ns against ms, thermo/stream.py 1377-1383; property_molar_to_mass(m, MW) = m*1000/MW
   (chemicals.utils). None is an exception (inconsistency, division by zero or a list of the wrong length) *)
Fixpoint reconcile_ns_ms (tol : R) (ns ms : vec) (MWs : list R) : option vec :=
  match ms with
  | [] => Some ns
  | mi :: ms' =>
      match ns with
      | [] => match mi with None => reconcile_ns_ms tol [] ms' (tl MWs) | Some _ => None end
      | ni :: ns' =>
          match mi with
          | None => option_map (cons ni) (reconcile_ns_ms tol ns' ms' (tl MWs))
          | Some m =>
              match MWs with
              | [] => None
              | M :: MWs' =>
                  if Reqb M 0 then None else
                  let c := m * 1000 / M in
                  match ni with
                  | Some n => if Reqb c 0 then None else
                      if Rltb tol (Rabs ((n - c) / c)) then None
                      else option_map (cons (Some c)) (reconcile_ns_ms tol ns' ms' MWs')
                  | None => option_map (cons (Some c)) (reconcile_ns_ms tol ns' ms' MWs')
                  end
              end
          end
      end
  end.
(* StreamArgs.reconcile_flows, thermo/stream.py 1289-1396. MWs is None when there is no flasher. solve stands for
   chemicals.utils.solve_flow_composition_mix (external; None when it raises). None is an exception; lists are
   replaced rather than edited in place. *)
Definition reconcile_flows (solve : option vec -> vec -> vec -> list R -> option vec) (MWs : option (list R))
    (s : args) : option args :=
  let n := sc s f_n in let m := sc s f_m in let Q := sc s f_Q in
  if (isSome n && (isSome m || isSome Q)) || (isSome m && isSome Q) then None
  else
    match (match n, ls s f_ns with
           | Some n, Some ns => option_map (fun l => putl s f_ns (Some l)) (reconcile_total (2 / 10 ^ 15) n ns)
           | _, _ => Some s end) with
    | None => None
    | Some s =>
    match (match m, ls s f_ms with
           | Some m, Some ms => option_map (fun l => putl s f_ms (Some l)) (reconcile_total (2 / 10 ^ 15) m ms)
           | _, _ => Some s end) with
    | None => None
    | Some s =>
    match (match ls s f_ns, ls s f_ms with
           | Some ns, Some ms =>
               match MWs with
               | None => Some (s, false)
               | Some MWs => option_map (fun l => (putl s f_ns (Some l), true)) (reconcile_ns_ms (2 / 10 ^ 15) ns ms MWs)
               end
           | _, _ => Some (s, true) end) with
    | None => None
    | Some (s, go) =>
        if (go && (isSome (ls s f_zs) || isSome (ls s f_ns)) && (isSome (ls s f_ws) || isSome (ls s f_ms))
            && (isSome m || isSome n || isSome (ls s f_ns) || isSome (ls s f_ms)))%bool then
          match MWs with
          | None => Some s
          | Some M =>
              let dflt o := match o with Some l => l | None => repeat None (length M) end in
              match solve (ls s f_ns) (dflt (ls s f_zs)) (dflt (ls s f_ws)) M with
              | Some ns => Some (putl s f_ns (Some ns))
              | None => Some s
              end
          end
        else Some s
    end end end.

(* StreamArgs.__init__, thermo/stream.py 229-343. kw holds the keyword arguments, exactly as passed. Line 253 stores
   the energy_reactive argument under 'H_reactive'. None is an exception (no object is created). *)
Definition count_list (kw : args) (ks : list lf) : nat := length (filter (fun k => isSome (ls kw k)) ks).
Definition count_sc (kw : args) (ks : list sf) : nat := length (filter (fun k => isSome (sc kw k)) ks).
Definition construct (solve : option vec -> vec -> vec -> list R -> option vec) (MWs : option (list R))
    (kw : args) : option args :=
  let s := put kw f_H_reactive (sc kw f_energy_reactive) in
  let composition_specs := count_list kw [f_zs; f_ws; f_Vfls; f_Vfgs; f_ns; f_ms; f_Qls; f_Qgs] in
  let flow_specs := (count_list kw [f_ns; f_ms; f_Qls; f_Qgs] + count_sc kw [f_n; f_m; f_Q; f_Ql; f_Qg])%nat in
  let state_specs := count_sc kw
    [f_T; f_P; f_V; f_rho; f_rho_mass; f_VF; f_H_mass; f_H; f_S_mass; f_S; f_U_mass; f_U; f_G_mass; f_G; f_A_mass; f_A;
     f_energy; f_energy_reactive; f_H_reactive] in
  let r := if (Nat.ltb 1 flow_specs || Nat.ltb 1 composition_specs)%bool then reconcile_flows solve MWs s else Some s in
  match r with
  | None => None
  | Some s =>
      if (Nat.ltb 1 composition_specs && negb (multi kw))%bool then None
      else if Nat.ltb 2 state_specs then None else Some s
  end.
(* StreamArgs.copy, thermo/stream.py 345-386: the constructor applied to the stored specifications *)
Definition copy (solve : option vec -> vec -> vec -> list R -> option vec) (MWs : option (list R)) (s : args) :=
  construct solve MWs s.
