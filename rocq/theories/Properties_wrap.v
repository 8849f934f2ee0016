(** * Properties C60, C61: functions that the package defines but does not call *)
From Coq Require Import String ZArith Bool List Reals.
From Verif Require Import Num Res Arr Nd M_ppinterp M_eos_base M_gsw M_wrap S_eos S_wrap P_wrap.
Import ListNotations.
Local Open Scope R_scope.

(** ** C60 *)
Theorem C60_wrap_names : forall w l d0 d1 diags, given_names w l ->
  exists flags, process_wrap w (Some [d0; d1]) diags = Ok (WSeq true (map WFlag flags)) /\ flags_of l [d0; d1] flags.
Proof. exact wrap_names. Qed.
Print Assumptions C60_wrap_names.

Theorem C60_wrap_flags : forall tuple b0 b1 dims diags,
  process_wrap (WSeq tuple [WFlag b0; WFlag b1]) dims diags = Ok (WSeq tuple [WFlag b0; WFlag b1]).
Proof. exact wrap_flags. Qed.
Print Assumptions C60_wrap_flags.

Theorem C60_wrap_missing : forall dims diags, process_wrap WNone dims diags = if diags then Err ValueError else Ok WNone.
Proof. exact wrap_missing. Qed.
Print Assumptions C60_wrap_missing.

Theorem C60_wrap_result : forall w dims diags r, process_wrap w dims diags = Ok r ->
  (w = WNone /\ r = WNone /\ diags = false) \/ exists tuple a b, r = WSeq tuple [a; b].
Proof. exact wrap_result. Qed.
Print Assumptions C60_wrap_result.

Theorem C60_wrap_raises : forall w dims diags e, process_wrap w dims diags = Err e ->
  (e = ValueError /\ w = WNone /\ diags = true)
  \/ (e = TypeError /\ (w = WOther
       \/ (exists l, given_names w l /\ forall d0 d1, dims <> Some [d0; d1])
       \/ exists tuple l b, w = WSeq tuple l /\ In (WFlag b) l /\ length l <> 2%nat)).
Proof. exact wrap_raises. Qed.
Print Assumptions C60_wrap_raises.

(** a name that is not the name of a dimension passes without notice *)
Theorem C60_wrap_unknown_refuted : exists l d0 d1 s, In s l /\ ~ In s [d0; d1] /\
  process_wrap (WSeq true (map WName l)) (Some [d0; d1]) true = Ok (WSeq true [WFlag false; WFlag false]).
Proof. exact wrap_unknown_refutes. Qed.
Print Assumptions C60_wrap_unknown_refuted.

(** the result is not always a tuple, nor free of strings *)
Theorem C60_wrap_tuple_refuted : exists w ds diags, process_wrap w ds diags = Ok (WSeq false [WName "longitude"; WFlag false]).
Proof. exact wrap_mixed_refutes. Qed.
Print Assumptions C60_wrap_tuple_refuted.

Theorem C60_interp_again : forall {F} (interp_fn : nd F -> nd F -> res (nd F)) S T P ni nj nk, shape S = [ni; nj; nk] ->
  forall C D m m' Sppc Tppc,
    (Sppc = None \/ exists C', Sppc = Some C' /\ shape C' = [ni; nj; nk; m]) ->
    (Tppc = None \/ exists C', Tppc = Some C' /\ shape C' = [ni; nj; nk; m']) ->
    interp_fn P S = Ok C -> interp_fn P T = Ok D -> interp_casts interp_fn S T P Sppc Tppc = Ok (C, D).
Proof. exact @interp_again. Qed.
Print Assumptions C60_interp_again.

Theorem C60_interp_given : forall {F} (interp_fn : nd F -> nd F -> res (nd F)) S T P ni nj nk, shape S = [ni; nj; nk] ->
  forall C D m m', (0 < nk)%nat -> shape C = [ni; nj; nk - 1; m]%nat -> shape D = [ni; nj; nk - 1; m']%nat ->
    interp_casts interp_fn S T P (Some C) (Some D) = Ok (C, D).
Proof. exact @interp_given. Qed.
Print Assumptions C60_interp_given.

Theorem C60_interp_shape : forall {F} (fn : nd F -> nd F -> res (nd F)) S T P Sppc Tppc, length (shape S) <> 3%nat ->
  interp_casts fn S T P Sppc Tppc = Err ValueError.
Proof. exact @interp_shape. Qed.
Print Assumptions C60_interp_shape.

(** coefficients already provided, of the shape that interpolation gives, are not used *)
Theorem C60_interp_reuse_refuted : exists S T P C D C' D', lin1 P S = Ok C' /\ lin1 P T = Ok D' /\ shape C = shape C' /\ shape D = shape D' /\ C <> C' /\ D <> D'
  /\ interp_casts lin1 S T P (Some C) (Some D) = Ok (C', D').
Proof. exact reuse_refutes. Qed.
Print Assumptions C60_interp_reuse_refuted.

Example C60_case : process_wrap (WSeq false [WName "longitude"]) (Some ["longitude"; "latitude"]%string) true = Ok (WSeq true [WFlag true; WFlag false])
  /\ process_wrap (WStr "latitude") (Some ["longitude"; "latitude"]%string) true = Ok (WSeq true [WFlag false; WFlag true])
  /\ process_wrap (WSeq true []) (Some ["x"; "y"]%string) false = Ok (WSeq true [WFlag false; WFlag false])
  /\ process_wrap (WSeq true []) None false = Err TypeError.
Proof. exact wrap_example. Qed.

(** ** C61 *)
Theorem C61_gswc : forall rho derivs (dv : R -> R -> res R), teos_library rho derivs -> dv = sdiv \/ dv = adiv ->
  forall s t p, ocean s t p -> 0 < s -> exists v vs vt vp,
    gsw_specvol s t p = Ok v /\ gsw_specvol_s_t dv s t p = Ok (vs, vt) /\ gsw_specvol_p s t p = Ok vp
    /\ gswc_rho rho s t p = / v /\ gswc_rho_s_t derivs s t p = (- vs / (v * v), - vt / (v * v)) /\ gswc_rho_p derivs s t p = - vp / (v * v).
Proof. exact gswc_ok. Qed.
Print Assumptions C61_gswc.

Example C61_library : exists rho derivs, teos_library rho derivs.
Proof. exact library_exists. Qed.
