(** * Properties C42 (eos/tools.py, lib.py: _process_eos) and C46 (lru_cache) *)
From Coq Require Import String ZArith Reals List.
From Verif Require Import Num SF Res M_eos_base M_eostools M_cache S_eos S_eostools S_cache P_eostools P_cache Ex_eostools.
Import ListNotations.
Local Open Scope R_scope.

(** any arithmetic: which function is made, at which pressure it is evaluated, what raises *)
Theorem C42_choice : forall (F : Type) (Nm : Num F) (dv : F -> F -> res F) e,
  (forall grav rho_c, grav = None \/ rho_c = None ->
     make_eos dv e grav rho_c = make_eos dv e None None /\
     make_eos_s_t dv e grav rho_c = make_eos_s_t dv e None None /\
     make_eos_p dv e grav rho_c = make_eos_p dv e None None) /\
  (forall f, e = AFun f ->
     make_eos dv e None None = Ok f /\ make_eos_s_t dv e None None = Ok f /\ make_eos_p dv e None None = Ok f) /\
  (forall g r, let k := mul (mul (lit 1 (-4)) g) r in
     (forall f, make_eos dv e None None = Ok (F1 f) -> exists f', make_eos dv e (Some g) (Some r) = Ok (F1 f') /\
        forall s t z, f' s t z = f s t (mul z k)) /\
     (forall f, make_eos_s_t dv e None None = Ok (F2 f) -> exists f', make_eos_s_t dv e (Some g) (Some r) = Ok (F2 f') /\
        forall s t z, f' s t z = f s t (mul z k)) /\
     (forall f, make_eos_p dv e None None = Ok (F1 f) -> exists f', make_eos_p dv e (Some g) (Some r) = Ok (F1 f') /\
        forall s t z, f' s t z = match f s t (mul z k) with Ok v => Ok (mul v k) | Err x => Err x end)) /\
  (forall grav rho_c,
     (forall name, e = AStr name -> ~ In name ["gsw"; "jmd95"; "jmdfwg06"]%string ->
        make_eos dv e grav rho_c = Err ValueError /\ make_eos_s_t dv e grav rho_c = Err ValueError /\
        make_eos_p dv e grav rho_c = Err ValueError) /\
     (e = AOther \/ (exists l, e = ATup l) ->
        make_eos dv e grav rho_c = Err TypeError /\ make_eos_s_t dv e grav rho_c = Err TypeError /\
        make_eos_p dv e grav rho_c = Err TypeError)).
Proof. exact choice. Qed.
Print Assumptions C42_choice.

(** exact arithmetic, any function f and any made from it: the Boussinesq functions are
    f at the hydrostatic pressure, and its derivatives in s, t and depth *)
Theorem C42_chain_rule : forall (dv : R -> R -> res R) e (f : R -> R -> R -> R) g r s t z, let p := hydrostatic g r z in
  (forall h, make_eos dv e None None = Ok (F1 h) -> h s t p = Ok (f s t p) ->
     exists h', make_eos dv e (Some g) (Some r) = Ok (F1 h') /\ h' s t z = Ok (at_depth f g r s t z)) /\
  (forall h rs rt, make_eos_s_t dv e None None = Ok (F2 h) -> h s t p = Ok (rs, rt) ->
     diff_s f s t p rs -> diff_t f s t p rt ->
     exists h', make_eos_s_t dv e (Some g) (Some r) = Ok (F2 h') /\ exists bs bt, h' s t z = Ok (bs, bt) /\
       diff_s (at_depth f g r) s t z bs /\ diff_t (at_depth f g r) s t z bt) /\
  (forall h rp, make_eos_p dv e None None = Ok (F1 h) -> h s t p = Ok rp -> diff_p f s t p rp ->
     exists h', make_eos_p dv e (Some g) (Some r) = Ok (F1 h') /\ exists bp, h' s t z = Ok bp /\
       diff_p (at_depth f g r) s t z bp).
Proof. exact chain. Qed.
Print Assumptions C42_chain_rule.

(** the named equations of state, without and with the constants *)
Theorem C42_named : forall dv : R -> R -> res R, dv = sdiv \/ dv = adiv ->
  forall name f dom, named name f dom ->
  exists h h2 h3, make_eos dv (AStr name) None None = Ok (F1 h) /\
    make_eos_s_t dv (AStr name) None None = Ok (F2 h2) /\
    make_eos_p dv (AStr name) None None = Ok (F1 h3) /\
    forall s t p, dom s t p -> h s t p = Ok (f s t p) /\
      (exists rp, h3 s t p = Ok rp /\ diff_p f s t p rp) /\
      (0 < s -> exists rs rt, h2 s t p = Ok (rs, rt) /\ diff_s f s t p rs /\ diff_t f s t p rt).
Proof. exact named_plain. Qed.
Print Assumptions C42_named.

Theorem C42_named_boussinesq : forall dv : R -> R -> res R, dv = sdiv \/ dv = adiv ->
  forall name f dom g r, named name f dom ->
  exists h h2 h3, make_eos dv (AStr name) (Some g) (Some r) = Ok (F1 h) /\
    make_eos_s_t dv (AStr name) (Some g) (Some r) = Ok (F2 h2) /\
    make_eos_p dv (AStr name) (Some g) (Some r) = Ok (F1 h3) /\
    forall s t z, dom s t (hydrostatic g r z) -> h s t z = Ok (at_depth f g r s t z) /\
      (exists rz, h3 s t z = Ok rz /\ diff_p (at_depth f g r) s t z rz) /\
      (0 < s -> exists rs rt, h2 s t z = Ok (rs, rt) /\
         diff_s (at_depth f g r) s t z rs /\ diff_t (at_depth f g r) s t z rt).
Proof. exact named_bsq. Qed.
Print Assumptions C42_named_boussinesq.

(** _process_eos: names are made with the constants, functions are taken as they are *)
Theorem C42_process : forall (F : Type) (Nm : Num F) (dv : F -> F -> res F) grav rho_c,
  (forall name,
     _process_eos dv (AStr name) grav rho_c false =
       (match make_eos dv (AStr name) grav rho_c with Ok f => Ok (f, None) | Err x => Err x end) /\
     forall f g, _process_eos dv (AStr name) grav rho_c true = Ok (f, g) <->
       make_eos dv (AStr name) grav rho_c = Ok f /\
       exists g', make_eos_s_t dv (AStr name) grav rho_c = Ok g' /\ g = Some g') /\
  (forall f g rest,
     _process_eos dv (AFun f) grav rho_c false = Ok (f, None) /\
     _process_eos dv (ATup (AFun f :: rest)) grav rho_c false = Ok (f, None) /\
     _process_eos dv (ATup [AFun f; AFun g]) grav rho_c true = Ok (f, Some g) /\
     _process_eos dv (AFun f) grav rho_c true = Err ValueError) /\
  (forall e f g, _process_eos dv e grav rho_c true = Ok (f, g) -> exists g', g = Some g').
Proof. exact process. Qed.
Print Assumptions C42_process.

(** "make the function with make_eos('gsw', grav, rho_c) and pass it with grav and rho_c":
    make_eos (used by mixed_layer, ntp_bottle_to_cast, neutral_trajectory, the neutrality
    errors) converts depth to pressure a second time; _process_eos (surfaces, veronis) does not *)
Theorem C42_made_function_refuted : exists (g r : R) f s t z v v',
  make_eos sdiv (AStr "gsw") (Some g) (Some r) = Ok (F1 f) /\ f s t z = Ok v /\
  _process_eos sdiv (AFun (F1 f)) (Some g) (Some r) false = Ok (F1 f, None) /\
  exists f', make_eos sdiv (AFun (F1 f)) (Some g) (Some r) = Ok (F1 f') /\ f' s t z = Ok v' /\ v' <> v.
Proof. exact made_twice. Qed.
Print Assumptions C42_made_function_refuted.

(** every history of calls: results are those of the plain function when equal arguments have
    equal results; at most maxsize entries *)
Theorem C46_transparent : forall (K V : Type) (keq : K -> K -> bool) (raw : K -> res V) maxsize,
  (forall k k', keq k k' = true -> raw k = raw k') ->
  forall history, let run := calls keq raw maxsize history [] in
  map fst (fst run) = map raw history /\ (length (snd run) <= maxsize)%nat.
Proof. exact transparent. Qed.
Print Assumptions C46_transparent.

(** what the cache holds: the keys used last; and when the function is not called *)
Theorem C46_least_recently_used : forall (K V : Type) (K_dec : forall a b : K, {a = b} + {a <> b})
    (keq : K -> K -> bool) (raw : K -> res V) maxsize,
  (forall a b, keq a b = true <-> a = b) ->
  forall before k, let ok k := is_ok (raw k) in
  let c := snd (calls keq raw maxsize before []) in
  map fst c = firstn maxsize (recent K_dec (rev (filter ok before))) /\
  (snd (fst (call keq raw maxsize k c)) = false <->
     In k (firstn maxsize (recent K_dec (rev (filter ok before))))).
Proof. exact lru. Qed.
Print Assumptions C46_least_recently_used.

(** 0.0 == -0.0: make_bsq with grav = -0.0 may return the function made for 0.0 *)
Theorem C46_equal_arguments_refuted : exists (raw : f64 -> res fn) history,
  (forall g, raw g = Ok (make_bsq recip g (lit 1 0) 0)) /\
  map fst (fst (calls eqb raw 10 history [])) <> map raw history.
Proof. exact signed_zero. Qed.
Print Assumptions C46_equal_arguments_refuted.

Example C42_witness : named "gsw" teos_v (fun _ _ _ => True). Proof. exact named_gsw. Qed.
Example C46_witness :
  let raw (k : nat) : res nat := if Nat.eqb k 7 then Err ValueError else Ok (k * k)%nat in
  calls Nat.eqb raw 2 [1; 2; 1; 3; 7; 2]%nat [] =
  ([(Ok 1, true); (Ok 4, true); (Ok 1, false); (Ok 9, true); (Err ValueError, true); (Ok 4, true)]%nat, [(2, 4); (3, 9)]%nat).
Proof. exact lru_run. Qed.
