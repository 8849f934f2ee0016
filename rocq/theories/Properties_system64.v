(** * The linear problems of omega surfaces in binary64 *)
From Coq Require Import String ZArith Reals List SpecFloat.
From Verif Require Import Num XR SF Res Arr M_eostools M_lib M_ntp M_matsolve S_eos S_float S_domain S_named S_surfaces S_vert64 S_entry64 S_ntp S_ntp64 S_omega S_matsolve S_system64
  P_system64b Ex_ntp64 Ex_system64.
Import ListNotations.
Local Open Scope R_scope.

Theorem C65_systems : forall name v s0 h b grav rho_c zp pm vs vt, named_eos name v -> error_limits64 name s0 h b -> coordinate64 grav rho_c zp pm ->
  partials (seas zp) (at_depth zp v) vs vt ->
  exists f, make_eos_s_t sdiv (AStr name) grav rho_c = Ok (F2 f)
    /\ forall stp w edges m pin dist perp ds ws g, NoDup m -> In pin m ->
         (forall i, In i m -> exists x, nth_error stp i = Some x /\ bottle_holds (sea s0 pm) h x (w i)) ->
         Forall (fun e => (fst e < length stp)%nat /\ (snd e < length stp)%nat) edges -> edges <> [] -> INR (length edges) <= powerRZ 2 40 ->
         distances64 dist (length edges) ds -> distances64 perp (length edges) ws -> Forall moderate ds -> Forall (fun w => w = 0 \/ moderate w) ws ->
         gdiv perp dist = Ok g ->
         let l := inner m edges (weights ds ws) in
         let err := fun a c => edge_error vs vt (w a) (w c) in
         let n := length stp in
         let N := length m in
         ((N <= 1)%nat -> exists phi, placed n m (fun _ _ => Some zero) phi
            /\ (forall spsolve, matsolve_poisson f spsolve stp edges g m pin = Ok phi) /\ (forall lsqr, matsolve_gradient f lsqr stp edges (geom_sqrt g) m pin = Ok phi))
         /\ ((1 < N)%nat -> exists A r, poisson64 b l err m pin A r
               /\ forall spsolve, length (spsolve N A r) = N -> exists phi, matsolve_poisson f spsolve stp edges g m pin = Ok phi
                    /\ placed n m (fun k i => if Nat.eqb i pin then Some zero else nth_error (spsolve N A r) k) phi)
         /\ ((1 < N)%nat -> exists A r, gradient64 b l err m pin A r
               /\ forall lsqr k0 s, length (lsqr (S (length l)) N A r) = N -> nth_error m k0 = Some pin -> nth_error (lsqr (S (length l)) N A r) k0 = Some s ->
                    exists phi, matsolve_gradient f lsqr stp edges (geom_sqrt g) m pin = Ok phi
                      /\ placed n m (fun k _ => option_map (fun x => sub x s) (nth_error (lsqr (S (length l)) N A r) k)) phi).
Proof. exact systems64. Qed.
Print Assumptions C65_systems.

Example C65_nodes : NoDup ynodes /\ In 0%nat ynodes
  /\ (forall i, In i ynodes -> exists x, nth_error nbottles i = Some x /\ bottle_holds (sea (/ 1000) 10000) (dec 1 (-13)) x (ywater i))
  /\ Forall (fun e => (fst e < length nbottles)%nat /\ (snd e < length nbottles)%nat) nedges /\ nedges <> [].
Proof. exact y_nodes. Qed.
Example C65_ratio : exists g, gdiv nperp ndist = Ok g.
Proof. exact y_ratio. Qed.
Example C65_distances : distances64 ndist 3 [10; 20; 500] /\ distances64 nperp 3 [5; 5; 5] /\ Forall moderate [10; 20; 500]
  /\ Forall (fun w => w = 0 \/ moderate w) [5; 5; 5] /\ INR 3 <= powerRZ 2 40.
Proof. exact n_distances. Qed.
Example C65_run : exists a c d e f g, y_run_value = Some (Ok [zero; a; nan; c], Ok [nan; zero; nan; nan], Ok [d; e; nan; f])
  /\ g = (lit 5 (-1) : f64) /\ a = opp g /\ c = opp (lit 1 (-2) : f64) /\ SFltb d zero = true /\ SFltb zero e = true /\ f = zero /\ y_run = y_run_value.
Proof. exact y_runs. Qed.
