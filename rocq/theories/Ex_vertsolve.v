(** * Witnesses for the surface properties *)
From Coq Require Import ZArith Bool Reals Lra Lia List SpecFloat.
From Verif Require Import Num XR SF Res Arr Nd XRlemmas M_ppinterp M_vertsolve S_interp S_fzero S_traj S_vertsolve
  P_ppinterp P_traj P_vertsolve Ex_ppinterp Ex_traj.
Import ListNotations.
Local Open Scope R_scope.

(** two columns, the second without enough data *)
Definition vcasts : nd (list xr * list xr * list xr) := mk_nd [2%nat] [(exY, exT, exX); ([NaN; Fin 1], [NaN; Fin 1], [NaN; Fin 2])].

Lemma vcasts_any : Forall any_cast (elems vcasts).
Proof. apply Forall_cons; [exact ex_any_cast|]. apply Forall_cons; [|constructor]. left. exact ex_short_cast. Qed.

Lemma short_in : cast_in exD ([NaN; Fin 1], [NaN; Fin 1], [NaN; Fin 2]).
Proof.
  apply (cast_in_block exD _ _ _ 1 2 (fun _ => 1) (fun _ => 1) (fun _ => 2)).
  - constructor; [|reflexivity|intros i Hi; assert (i = 1)%nat as -> by lia; reflexivity].
    constructor; try reflexivity; simpl; try lia; intros i Hi.
    + assert (i = 1)%nat as -> by lia. reflexivity.
    + assert (i = 1)%nat as -> by lia. reflexivity.
    + assert (i = 0)%nat as -> by lia. left. reflexivity.
  - intros i Hi. cbn. unfold upto. lra.
Qed.
Lemma vcasts_in : Forall (cast_in exD) (elems vcasts).
Proof. repeat apply Forall_cons; [exact ex_cast_in|exact short_in|constructor]. Qed.

Lemma short_fuel : enough_fuel 13 1 ([NaN; Fin 1], [NaN; Fin 1], [NaN; Fin 2]).
Proof.
  split; [lia|]. intros k K ss ts ps HC. pose proof (cast_blk _ _ _ _ _ _ _ _ HC) as HB.
  pose proof (blk_kK _ _ _ _ _ _ HB). pose proof (blk_K _ _ _ _ _ _ HB) as H1. cbn in H1.
  assert (k = 1%nat).
  { destruct k as [|[|k]]; [|reflexivity|lia]. pose proof (blk_X _ _ _ _ _ _ HB 0%nat ltac:(lia)) as E. discriminate. }
  subst k. assert (K = 2%nat) as -> by lia. cbn [Nat.sub]. replace (INR 13) with 13 by (cbn; lra). lra.
Qed.

Lemma vcasts_fuel : Forall (enough_fuel 13 1) (elems vcasts).
Proof. repeat apply Forall_cons; [exact ex_enough_fuel|exact short_fuel|constructor]. Qed.

Lemma vcasts_pin : pin_ok vcasts [(-2)%Z] 0 2.
Proof.
  exists [0%nat], (exY, exT, exX), 1%nat, 4%nat, exys, exts, exxs. split; [cbn; lia|].
  split; [reflexivity|]. split; [reflexivity|]. split; [exact ex_cast|]. split; [lia|]. cbn. lra.
Qed.

Lemma exeos_nan : forall p, exeos NaN NaN p = Ok NaN.
Proof. intros [p| | |]; reflexivity. Qed.

Lemma exeos_nan_p : forall s t, exeos s t NaN = Ok NaN.
Proof. intros s t. unfold exeos. destruct s, t; cbn; try reflexivity. Qed.

Lemma omega_inputs : omega_input exD (Fin 1, Fin 2, Fin 3) (Fin 1) /\ omega_input exD (NaN, NaN, NaN) NaN /\ omega_input exD (NaN, NaN, NaN) (Fin 0).
Proof.
  split; [right; right; split; [exists 1, 2, 3; cbn; unfold upto; repeat split; lra|eexists; reflexivity]|].
  split; [right; left; reflexivity|left; reflexivity].
Qed.

(** binary64 *)
Definition fl (l : list Z) : list f64 := map (fun z => lit z 0) l.
Definition wcasts : nd (list f64 * list f64 * list f64) :=
  mk_nd [3%nat]
    [(fl [1; 2; 3], fl [9; 9; 9], fl [0; 100; 200]);
     (fl [2; 3; 4], fl [9; 9; 9], fl [0; 100; 200]);
     ([lit 3 0; nan], fl [9; 9], fl [0; 100])]%Z.
Definition run (a : ans) ref iso pc pp := isopycnal feos (linear_coeffs_1 nan) 100 a ref iso pc pp 3 wcasts (lit 1 (-4)).

(** salinity, temperature and pressure of the surface on column n *)
Definition on_column (r : res (list (f64 * f64 * f64) * @refarg f64 * f64)) (n : nat) : option (f64 * f64 * f64) :=
  match r with Ok (x, _, _) => nth_error x n | Err _ => None end.

Lemma run_pinned : on_column (run Potential RNone None (CTuple [1%Z]) (PFloat (lit 50 0))) 1 = Some (lit 25 (-1), lit 9 0, lit 50 0).
Proof. vm_compute. reflexivity. Qed.
Lemma run_pinned_first : on_column (run Potential RNone None (CTuple [1%Z]) (PFloat (lit 50 0))) 0
  = Some (lit 24999999999999996 (-16), lit 9 0, lit 14999999999999997 (-14)).
Proof. vm_compute. reflexivity. Qed.

(** ref and isoval given: the pinning point still moves the surface *)
Lemma run_pin_not_ignored :
  let r := RFloat (lit 0 0) in let v := Some (lit 25 (-1)) in
  let p := PFloat (lit 100 0) in
  on_column (run Potential r v CNone PNone) 1 <> on_column (run Potential r v (CTuple [1%Z]) p) 1
  /\ on_column (run Potential r v (CTuple [1%Z]) p) 1 = Some (lit 3 0, lit 9 0, lit 100 0)
  /\ run Potential r v CNone p = Err TypeError.
Proof. split; [|split]; vm_compute; [discriminate|reflexivity|reflexivity]. Qed.

(** accepted arguments that make the computation fail *)
Lemma run_undocumented :
  check_ref Potential RNone (Some (lit 25 (-1))) (CTuple [1%Z]) (PFloat (lit 50 0)) [3; 3]%nat = Ok tt
  /\ run Potential RNone (Some (lit 25 (-1))) (CTuple [1%Z]) (PFloat (lit 50 0)) = Err TypeError.
Proof. split; vm_compute; reflexivity. Qed.
Lemma run_list :
  check_ref Potential RNone None (CList [1%Z]) (PFloat (lit 50 0 : f64)) [3; 3]%nat = Ok tt
  /\ run Potential RNone None (CList [1%Z]) (PFloat (lit 50 0)) = Err TypeError.
Proof. split; vm_compute; reflexivity. Qed.
Lemma run_too_many :
  check_ref Potential RNone None (CTuple [1; 1]%Z) (PFloat (lit 50 0 : f64)) [3; 3]%nat = Ok tt
  /\ run Potential RNone None (CTuple [1; 1]%Z) (PFloat (lit 50 0)) = Err TypeError.
Proof. split; vm_compute; reflexivity. Qed.
