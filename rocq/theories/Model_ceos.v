(* Phases of cubic equations of state (thermo/phases/ceos.py: CEOSPhase, CEOSGas, CEOSLiquid). A phase owns a reference to an equation
   of state object (eos_mix), which other phases may share and which is completed in place by solve_missing_volumes. Objects are kept
   in a heap so that sharing and the order of calls matter as they do in the code. *)
From Coq Require Import Reals List Bool String.
From Verif Require Import Base Model_roots Gen_ceos.
Open Scope R_scope.
Open Scope bool_scope.
Import ListNotations.

(* ---- reading a property from the equation of state *)
(* result of reading an attribute or calling a method *)
Inductive outcome (A : Type) := Ok (a : A) | AttributeError | OtherError.
Arguments Ok {A}. Arguments AttributeError {A}. Arguments OtherError {A}.

Definition side := bool. (* true: gas *)
Definition vol (sd : side) (s : eos_state) : option R := if sd then V_g s else V_l s.
(* thermo/eos.py, lines 1331-1467 and 4934-7060: the attributes of a root are named after the property, with _l or _g put at the end or
   before _T, _P or _V. parse gives the name of the property without it, and the side. *)
Definition tails : list string := [""; "_T"; "_P"; "_V"]%string.
Definition mark (s : string) : option (string * side) :=
  match find (fun t => String.eqb s ("_g" ++ t)) tails with
  | Some t => Some (t, true)
  | None => match find (fun t => String.eqb s ("_l" ++ t)) tails with Some t => Some (t, false) | None => None end
  end%string.
Fixpoint parse (s : string) : option (string * side) :=
  match mark s with
  | Some r => Some r
  | None => match s with
            | String c r => match parse r with Some (k, sd) => Some (String c k, sd) | None => None end
            | EmptyString => None end
  end.
Definition phase_side (s : string) : option side := if String.eqb s "g" then Some true else if String.eqb s "l" then Some false else None.
Definition z_side (s : string) : option side := if String.eqb s "Z_g" then Some true else if String.eqb s "Z_l" then Some false else None.

Section Read.
Variable A : Type.
(* val k V: the property k of the equation of state at volume V; its own computation may fail *)
Variable val : string -> R -> outcome A.
(* thermo/phases/ceos.py, lines 605-877 and 892-1166: the right hand sides self.eos_mix.X_g, self.eos_mix.X(self.eos_mix.Z_g) and
   self.eos_mix.X('g'). The attributes of a root exist once the root has been solved for. A method called with Z is a function of
   the volume of the root, as Z = P V / (R T) (line 1440 of thermo/eos.py). *)
Definition at_side (k : string) (sd : side) (s : eos_state) : outcome A :=
  match vol sd s with Some V => val k V | None => AttributeError end.
Definition read (src : source) (s : eos_state) : outcome A :=
  match src with
  | Attr n => match parse n with Some (k, sd) => at_side k sd s | None => AttributeError end
  | CallZ m z => match z_side z with Some sd => at_side m sd s | None => AttributeError end
  | CallPhase m p => match phase_side p with Some sd => at_side m sd s | None => AttributeError end
  end.
(* the try statement of the methods: AttributeError, or with a bare handler any exception, leads to the second expression *)
Definition exec (b : body) (s : eos_state) : outcome A :=
  let 'Try first second bare := b in
  match read first s with
  | Ok a => Ok a
  | AttributeError => read second s
  | OtherError => if bare then read second s else OtherError
  end.
End Read.

(* thermo/phases/ceos.py, lines 605-877 (CEOSGas) and 892-1166 (CEOSLiquid) *)
Definition methods (gas : bool) : list (string * body) := if gas then CEOSGas_methods else CEOSLiquid_methods.
(* thermo/phases/ceos.py, lines 731-735 and 1018-1022: the method V, written for the volume itself *)
Definition root (gas : bool) (s : eos_state) : option R :=
  match vol gas s with Some v => Some v | None => vol (negb gas) s end.
(* thermo/phases/ceos.py, lines 599-603 and 886-890: the property phase; None: phase of the equation of state not set *)
Definition label (gas : bool) (s : eos_state) : option side :=
  match ph s with Some Liq => Some false | Some Gas => Some true | Some LiqGas => Some gas | None => None end.

(* ---- objects *)
(* an equation of state object: its conditions, its phase state and raw_volumes (not set when V was specified) *)
Record eos := mkE { cT : R; cP : R; czs : list R; est : eos_state; eraw : option (list (R * R)) }.
(* a phase object: class, eos_mix (None: never assigned), T, P, zs and the cache _lnphis_lowest_Gibbs. Fugacity coefficients are
   represented by the volume of the root they are evaluated at. *)
Record obj := mkO { gas : bool; eref : option nat; oT : option R; oP : option R; ozs : list R; low : option R }.
Record world := mkW { heap : list eos; objs : list obj }.
Definition empty : world := mkW [] [].
Inductive exc := ValueError | Attribute_Error | NoObject.
(* answers: the volume of the root an answer is evaluated at, 'g' or 'l', the index of a new phase, an exception *)
Inductive res := Vol (V : R) | IsPhase (sd : side) | New (k : nat) | Raise (e : exc).
Inductive op :=
| ONew (g : bool) (T P : R) (zs : list R)
| OTo (i : nat) (zs : list R) (T P V : option R)
| OToTP (i : nat) (T P : R) (zs : list R) (other : option nat) (* other: index of the phase whose eos_mix is passed as other_eos *)
| OProp (i : nat)
| OPhase (i : nat)
| OGMin (i : nat)
| OLowest (i : nat).

Fixpoint set_nth {A} (l : list A) (n : nat) (x : A) : list A :=
  match l, n with [], _ => [] | _ :: l, O => x :: l | y :: l, S n => y :: set_nth l n x end.

Section Phases.
(* the equation of state: phase identification parameter, whether the conditions are the critical point of a pure component, covolume,
   real and complex roots at T, P, the pressure at T, V, the temperature at P, V (solve_T; None if it fails) and the departure Gibbs
   energy of a volume *)
Variables (pip : R -> R -> list R -> R -> R) (crit : R -> R -> list R -> bool) (cov : list R -> R)
  (roots : R -> R -> list R -> list (R * R)) (Peos : R -> R -> list R -> R) (Tsolve : bool -> R -> R -> list R -> option R)
  (Gdep : R -> R -> list R -> R -> R).

(* thermo/eos.py, lines 1103-1159 (solve with T and P) through eos_mix.py to_TP_zs_fast, lines 479-551. None: ValueError *)
Definition eos_TP (T P : R) (zs : list R) (only_l only_g : bool) : option eos :=
  match set_from_PT (pip T P zs) (crit T P zs) (cov zs) (roots T P zs) only_l only_g fresh with
  | Some s => Some (mkE T P zs s (Some (roots T P zs)))
  | None => None
  end.
(* thermo/eos.py, lines 1112-1151: solve with V; raw_volumes is not set *)
Definition eos_V (T P V : R) (zs : list R) : option eos :=
  match solve_with_V (pip T P zs) (crit T P zs) (cov zs) V fresh with Some s => Some (mkE T P zs s None) | None => None end.
(* thermo/eos.py, lines 1118-1146: T and V given; a pressure not above zero is a ValueError *)
Definition eos_TV (T V : R) (zs : list R) : option eos :=
  let P := Peos T V zs in if Rleb P 0 then None else eos_V T P V zs.
(* thermo/eos.py, lines 1114-1117: P and V given *)
Definition eos_PV (g : bool) (P V : R) (zs : list R) : option eos :=
  match Tsolve g P V zs with Some T => eos_V T P V zs | None => None end.
(* thermo/eos.py, lines 1167-1180: solve_missing_volumes *)
Definition resolve1 (e : eos) (only_l only_g : bool) : option eos :=
  match eraw e with
  | None => None
  | Some r => match set_from_PT (pip (cT e) (cP e) (czs e)) (crit (cT e) (cP e) (czs e)) (cov (czs e)) r only_l only_g (est e) with
              | Some s => Some (mkE (cT e) (cP e) (czs e) s (eraw e)) | None => None end
  end.
Definition solve_missing (e : eos) : option eos :=
  match ph (est e) with
  | Some LiqGas =>
    match (match V_l (est e) with Some _ => Some e | None => resolve1 e true false end) with
    | None => None
    | Some e => match V_g (est e) with Some _ => Some e | None => resolve1 e false true end
    end
  | _ => Some e
  end.
(* thermo/eos.py, lines 1161-1165: resolve_full_alphas, in which only_l and only_g say whether V_l and V_g exist *)
Definition has_vol (v : option R) : bool := match v with Some _ => true | None => false end.
Definition resolve_full_alphas (e : eos) : option eos := resolve1 e (has_vol (V_l (est e))) (has_vol (V_g (est e))).

(* thermo/phases/ceos.py, lines 287-298: lnphis_G_min, the root whose coefficients are returned *)
Definition G_of (e : eos) (V : R) : R := Gdep (cT e) (cP e) (czs e) V.
Definition gmin (e : eos) : option eos * option R :=
  match ph (est e) with
  | Some LiqGas =>
    match solve_missing e with
    | None => (None, None)
    | Some e' => (Some e', match V_l (est e'), V_g (est e') with
                          | Some vl, Some vg => Some (if Rltb (G_of e' vl) (G_of e' vg) then vl else vg)
                          | _, _ => None end)
    end
  | _ => (Some e, root true (est e))
  end.
(* thermo/phases/ceos.py, lines 541-556: lnphis_lowest_Gibbs without the cache *)
Definition lowest (e : eos) : option R :=
  match V_g (est e), V_l (est e) with
  | Some vg, Some vl => Some (if Rltb (G_of e vg) (G_of e vl) then vg else vl)
  | _, _ => root true (est e)
  end.

Definition add (w : world) (e : eos) (o : obj) : world * res :=
  (mkW (heap w ++ [e]) (objs w ++ [o]), New (List.length (objs w))).
Definition add_o (w : world) (o : obj) : world * res := (mkW (heap w) (objs w ++ [o]), New (List.length (objs w))).

(* thermo/phases/ceos.py, lines 220-226 and 252-257: only the root of the class is solved, except that a phase without eos_mix gets an
   AttributeError and falls back to the constructor of the equation of state, which solves both *)
Definition eos_from (p : obj) (T P : R) (zs : list R) : option eos :=
  match eref p with Some _ => eos_TP T P zs (negb (gas p)) (gas p) | None => eos_TP T P zs false false end.

(* one call. ONew: thermo/phases/ceos.py, lines 135-163 (the constructor; both roots are solved). OTo: lines 245-286 (to). OToTP: lines
   165-242 (to_TP_zs). OProp: the methods of the tables, by their root. OPhase: lines 599-603 and 886-890. OGMin, OLowest: lines 287-298 and 536-559.
   Simplified: equation of state classes are taken to have the methods to_TP_zs_fast, to and to_PV_zs, and the attributes which are
   copied unchanged are left out. *)
Definition step (w : world) (o : op) : world * res :=
  match o with
  | ONew g T P zs =>
    match eos_TP T P zs false false with
    | Some e => add w e (mkO g (Some (List.length (heap w))) (Some T) (Some P) zs None)
    | None => (w, Raise ValueError)
    end
  | OTo i zs T P V =>
    match nth_error (objs w) i with
    | None => (w, Raise NoObject)
    | Some p =>
      let g := gas p in
      match T, P, V with
      | Some T, Some P, _ =>
        match eos_from p T P zs with
        | Some e => add w e (mkO g (Some (List.length (heap w))) (Some T) (Some P) zs None)
        | None => (w, Raise ValueError)
        end
      | Some T, None, Some V =>
        match eos_TV T V zs with
        | Some e => add w e (mkO g (Some (List.length (heap w))) (Some T) (Some (cP e)) zs None)
        | None => (w, Raise ValueError)
        end
      | Some T, None, None => add_o w (mkO g None (Some T) None zs None)
      | None, Some P, Some V =>
        match eos_PV g P V zs with
        | Some e => add w e (mkO g (Some (List.length (heap w))) (Some (cT e)) (Some P) zs None)
        | None => (w, Raise ValueError)
        end
      | None, _, _ => (w, Raise ValueError)
      end
    end
  | OToTP i T P zs other =>
    match nth_error (objs w) i with
    | None => (w, Raise NoObject)
    | Some p =>
      match other with
      | None =>
        match eos_from p T P zs with
        | Some e => add w e (mkO (gas p) (Some (List.length (heap w))) (Some T) (Some P) zs None)
        | None => (w, Raise ValueError)
        end
      | Some j =>
        match nth_error (objs w) j with
        | None => (w, Raise NoObject)
        | Some q =>
          match eref q with
          | None => (w, Raise Attribute_Error)
          | Some l =>
            match nth_error (heap w) l with
            | None => (w, Raise NoObject)
            | Some e =>
              match solve_missing e with
              | None => (w, Raise ValueError)
              | Some e' => add_o (mkW (set_nth (heap w) l e') (objs w)) (mkO (gas p) (Some l) (Some T) (Some P) zs None)
              end
            end
          end
        end
      end
    end
  | OProp i | OPhase i | OGMin i | OLowest i =>
    match nth_error (objs w) i with
    | None => (w, Raise NoObject)
    | Some p =>
      match eref p with
      | None => (w, Raise Attribute_Error)
      | Some l =>
        match nth_error (heap w) l with
        | None => (w, Raise NoObject)
        | Some e =>
          match o with
          | OGMin _ =>
            match gmin e with
            | (Some e', Some v) => (mkW (set_nth (heap w) l e') (objs w), Vol v)
            | (Some e', None) => (mkW (set_nth (heap w) l e') (objs w), Raise Attribute_Error)
            | (None, _) => (w, Raise ValueError)
            end
          | OLowest _ =>
            match low p with
            | Some v => (w, Vol v)
            | None => match lowest e with
                      | Some v => (mkW (heap w) (set_nth (objs w) i (mkO (gas p) (eref p) (oT p) (oP p) (ozs p) (Some v))), Vol v)
                      | None => (w, Raise Attribute_Error) end
            end
          | OPhase _ => match label (gas p) (est e) with Some sd => (w, IsPhase sd) | None => (w, Raise Attribute_Error) end
          | _ => match root (gas p) (est e) with Some v => (w, Vol v) | None => (w, Raise Attribute_Error) end
          end
        end
      end
    end
  end.
Fixpoint run (w : world) (ops : list op) : world := match ops with [] => w | o :: ops => run (fst (step w o)) ops end.
End Phases.

(* thermo/eos_mix_methods.py, lines 838-872: the root eos_mix_a_alpha_volume selects for lnphis_at_zs and fugacities_at_zs, from the three
   volumes returned by volume_solutions_halley; G is the departure Gibbs energy *)
Definition select_root (G : R -> R) (l g : bool) (b V0 V1 V2 : R) : R :=
  if l && g then
    let lo := if negb (Reqb V1 0) then
                let lo := if Rltb V1 V0 && Rltb b V1 then V1 else V0 in if Rltb V2 lo && Rltb b V2 then V2 else lo else V0 in
    let hi := if negb (Reqb V1 0) then
                let hi := if Rltb V0 V1 && Rltb b V1 then V1 else V0 in if Rltb hi V2 && Rltb b V2 then V2 else hi else V0 in
    if negb (Reqb lo hi) then (if Rltb (G lo) (G hi) then lo else hi) else V0
  else if negb g then
    if negb (Reqb V1 0) then
      let v := if Rltb V1 V0 && Rltb b V1 then V1 else V0 in if Rltb V2 v && Rltb b V2 then V2 else v else V0
  else
    if negb (Reqb V1 0) then
      let v := if Rltb V0 V1 && Rltb b V1 then V1 else V0 in if Rltb v V2 && Rltb b V2 then V2 else v else V0.
(* thermo/phases/ceos.py, lines 302-331: lnphis_args gives l, g = is_liquid, is_gas whatever most_stable is *)
Definition at_zs_root (G : R -> R) (g most_stable : bool) (b V0 V1 V2 : R) : R := select_root G (negb g) g b V0 V1 V2.
