(** * Witnesses for the wetting searches in binary64 *)
From Coq Require Import ZArith Bool Reals Lra Lia List SpecFloat.
From Flocq Require Import Core.Raux.
From Verif Require Import Num XR SF Res Arr XRlemmas M_ppinterp M_eos_base M_jmd95 M_vertsolve M_traj M_bfs S_graph S_wet S_eos S_float S_interp S_fzero S_fzero64
  S_domain S_traj S_vertsolve S_vert64 S_omega64 P_float P_fl P_ppinterp P_traj P_linear64 Ex_vert64 Ex_bfs.
Import ListNotations.
Local Open Scope R_scope.

(** four casts, each next to each other *)
Definition four_ptr : list nat := [0; 3; 6; 9; 12]%nat.
Definition four_ind : list nat := [1; 2; 3; 0; 2; 3; 0; 1; 3; 0; 1; 2]%nat.
Lemma four_csr : csr 4 four_ptr four_ind.
Proof. split; [reflexivity|]. intros m n _ H. apply adj_lt in H. simpl in H. lia. Qed.
Lemma four_listed m : INR (length (listed four_ptr four_ind m)) <= powerRZ 2 32.
Proof.
  assert (H : (length (listed four_ptr four_ind m) <= 12)%nat) by (destruct m as [|[|[|[|[|m]]]]]; [vm_compute; lia..|]; destruct m; vm_compute; lia).
  apply le_INR in H. assert (INR 12 <= powerRZ 2 32) by (simpl; lra). lra.
Qed.

Definition deep : f64 := lit 9002 (-1).
Definition colD : column64 := (fl [34; 35]%Z, fl [20; 10]%Z, [lit 10 0; deep]).
Definition colD' : column := (fins [34; 35]%Z, fins [20; 10]%Z, [Fin 10; Fin (fval deep)]).

Lemma deep_val : finite64 deep /\ fval deep = 7918242938591642 / 8796093022208.
Proof. unfold deep. const64 7918242938591642%positive (-43)%Z. Qed.
Lemma deep_held : holds deep (Fin (fval deep)).
Proof. split; [exact (proj1 deep_val)|reflexivity]. Qed.
Lemma colD_holds : holds_column colD colD'.
Proof. split; [held_all|split; [held_all|]]. apply Forall2_cons; [held|]. apply Forall2_cons; [exact deep_held|apply Forall2_nil]. Qed.
Definition levD (i : nat) : R := match i with 0%nat => 10 | _ => fval deep end.
Lemma colD_cast : cast (fst (fst colD')) (snd (fst colD')) (snd colD') 0 2 (lev [34; 35]%Z) (lev [20; 10]%Z) levD.
Proof.
  pose proof (proj2 deep_val) as V.
  constructor; [constructor|reflexivity|]; simpl; try lia.
  - intros i Hi. destruct i as [|[|i]]; try lia; reflexivity.
  - intros i Hi. destruct i as [|[|i]]; try lia; reflexivity.
  - intros i _ Hi. destruct i as [|i]; try lia; cbn [levD]; lra.
  - intros i Hi. destruct i as [|[|i]]; try lia; reflexivity.
Qed.
Lemma colD_in pm : 1000 <= pm -> cast_in (sea (/ 1000) pm) colD'.
Proof.
  intros Hpm. pose proof (proj2 deep_val) as V. apply (cast_in_block _ _ _ _ _ _ _ _ _ colD_cast). intros i Hi.
  destruct i as [|[|i]]; try lia; unfold sea, box, lev, upto; cbn [dS dT dP nth levD]; repeat split; lra.
Qed.
Lemma colD_ok : column_ok64 (/ 1000) 10000 fuel_ex (fval (lit 1 0 : f64)) colD'.
Proof.
  pose proof p30 as P30. pose proof p900 as P900. pose proof fuel_ex_val as Fv. pose proof fuel_ex_13 as F13. pose proof (proj2 deep_val) as V.
  destruct tol_one as (_ & -> & _). split; [|split; [|split; [|split]]].
  - right. exists 0%nat, 2%nat, (lev [34; 35]%Z), (lev [20; 10]%Z), levD. split; [exact colD_cast|lia].
  - apply colD_in. lra.
  - refine (one_cast _ _ _ _ _ _ _ _ (fun k K ps => forall i, (k <= i)%nat -> (S i < K)%nat -> powerRZ 2 (-30) <= ps (S i) - ps i) colD_cast _).
    intros ps H i Hk Hi. rewrite !H by lia. destruct i as [|i]; try lia. cbn [levD]. lra.
  - refine (one_cast _ _ _ _ _ _ _ _ (fun k K ps => powerRZ 2 (-900) <= ps k) colD_cast _).
    intros ps H. rewrite !H by lia. cbn [levD]. lra.
  - split; [exact F13|].
    refine (one_cast _ _ _ _ _ _ _ _ (fun k K ps => 5 * (ps (K - 1)%nat - ps k) / 1 + 1 <= INR fuel_ex) colD_cast _).
    intros ps H. rewrite !H by lia. rewrite Fv. cbn [Nat.sub levD]. lra.
Qed.

(** three bottles at the deepest level of their casts; the fourth cast is dry *)
Definition casts4 : list column64 := [colD; colD; colD; colD].
Definition casts4' : list column := [colD'; colD'; colD'; colD'].
Definition bottom : bottle64 := (lit 35 0, lit 10 0, deep).
Definition stp4 : list bottle64 := [bottom; bottom; bottom; (nan, nan, nan)].
Definition ml4 : list f64 := [ninf; ninf; ninf; ninf].
Lemma casts4_holds : Forall2 holds_column casts4 casts4'.
Proof. pose proof colD_holds as H. exact (Forall2_cons _ _ H (Forall2_cons _ _ H (Forall2_cons _ _ H (Forall2_cons _ _ H (Forall2_nil _))))). Qed.
Lemma casts4_all (Q : column -> Prop) : Q colD' -> Forall Q casts4'.
Proof. intros H. exact (Forall_cons _ H (Forall_cons _ H (Forall_cons _ H (Forall_cons _ H (Forall_nil _))))). Qed.

Lemma bottom_sampled : sampled linear_fun (dec 1 (-13)) colD' bottom 35 10.
Proof.
  pose proof (proj2 deep_val) as V. set (q := fval deep) in *.
  exists (fun x => 34 + (x - 10) * ((35 - 34) / (q - 10))), (fun x => 20 + (x - 10) * ((10 - 20) / (q - 10))), 10, q, (lit 35 0), (lit 10 0), deep.
  assert (E0 : 0 <= dec 1 (-13)) by (unfold dec; simpl; lra).
  split; [|split; [reflexivity|split; [exact (proj1 deep_val)|split; [fold q; lra|split; [fold q; field; lra|split; [fold q; field; lra|split]]]]]].
  - assert (Dv : 0 < / (q - 10)) by (apply Rinv_0_lt_compat; lra). assert (Di : (q - 10) * / (q - 10) = 1) by (field; lra).
    constructor; [|intros x; reg..].
    exists 0%nat, 2%nat, (lev [34; 35]%Z), (lev [20; 10]%Z), levD. split; [exact colD_cast|]. split; [lia|].
    split; [intros x i (_ & Hi & _); assert (i = 0)%nat as -> by lia; unfold from, secant, lev; cbn [nth levD Nat.add]; fold q; reflexivity|].
    split; [intros x i (_ & Hi & _); assert (i = 0)%nat as -> by lia; unfold from, secant, lev; cbn [nth levD Nat.add]; fold q; reflexivity|].
    split; [|split; [|split; reflexivity]].
    + intros C HC Hy x Hx. pose proof (Hy 0%nat ltac:(lia)) as C0. pose proof (Hy 1%nat ltac:(lia)) as C1. revert Hx C0 C1.
      unfold from, lev. cbn [nth levD Nat.add Nat.sub]. fold q. intros Hx C0 C1. refine (HC _ _ _ C0 C1 _).
      unfold Rdiv. set (r := / (q - 10)) in *. nra.
    + intros C HC Hy x Hx. pose proof (Hy 0%nat ltac:(lia)) as C0. pose proof (Hy 1%nat ltac:(lia)) as C1. revert Hx C0 C1.
      unfold from, lev. cbn [nth levD Nat.add Nat.sub]. fold q. intros Hx C0 C1. refine (HC _ _ _ C1 C0 _).
      unfold Rdiv. set (r := / (q - 10)) in *. nra.
  - destruct h35 as [F W]. split; [exact F|]. rewrite W. rewrite Rminus_eq_0, Rabs_R0. exact E0.
  - destruct h10 as [F W]. split; [exact F|]. rewrite W. rewrite Rminus_eq_0, Rabs_R0. exact E0.
Qed.
Lemma stp4_surface : surface64 linear_fun (dec 1 (-13)) 10000 casts4' stp4.
Proof.
  split; [reflexivity|]. intros n b c Hb Hc. pose proof bottom_sampled as H.
  destruct n as [|[|[|[|n]]]]; cbn [nth_error stp4 casts4'] in Hb, Hc.
  4:{ left. assert (b = (nan, nan, nan)) by congruence. subst b. reflexivity. }
  4:{ destruct n; discriminate. }
  all: assert (b = bottom) by congruence; assert (c = colD') by congruence; subst b c; right; right; exists 35, 10; exact H.
Qed.

(** the mean of three equal pressures is larger: the new bottle is below its cast and gets NaN for salinity and temperature *)
Definition lost_value : f64 := S754_finite false 7918242938591643 (-43).
Lemma lost_run : bfs_conncomp1_wet_perim (jmd95_rho sdiv) (linear_coeffs_1 (nan : f64)) fuel_ex casts4 (lit 1 0 : f64) ml4
  10 [0; 0; 0; 0]%nat four_ptr four_ind 0 10 stp4 = Ok (1%nat, [bottom; bottom; bottom; (nan, nan, lost_value)]).
Proof. vm_compute. reflexivity. Qed.
Lemma lost_deep : isfinite (lost_value : f64) = true /\ ltb deep lost_value = true.
Proof. split; vm_compute; reflexivity. Qed.

(** here the new bottle has salinity and temperature *)
Definition wet_run_value : nat * list bottle64 := Eval vm_compute in
  match bfs_conncomp1_wet_perim (jmd95_rho sdiv) (linear_coeffs_1 (nan : f64)) fuel_ex [colA; colB] (lit 1 0 : f64) [ninf; ninf]
    10 [0; 0]%nat [0; 1; 2]%nat [1; 0]%nat 0 10 [(lit 35 0, lit 10 0, lit 500 0); (nan, nan, nan)] with Ok x => x | Err _ => (0%nat, []) end.
Lemma wet_run : bfs_conncomp1_wet_perim (jmd95_rho sdiv) (linear_coeffs_1 (nan : f64)) fuel_ex [colA; colB] (lit 1 0 : f64) [ninf; ninf]
    10 [0; 0]%nat [0; 1; 2]%nat [1; 0]%nat 0 10 [(lit 35 0, lit 10 0, lit 500 0); (nan, nan, nan)] = Ok wet_run_value.
Proof. vm_compute. reflexivity. Qed.
Lemma wet_run_water : exists s t p, nth_error (snd wet_run_value) 1 = Some (s, t, p) /\ isfinite s = true /\ isfinite t = true /\ isfinite p = true.
Proof. eexists _, _, _. split; [reflexivity|]. split; [reflexivity|]. split; reflexivity. Qed.
Lemma water_refuted : exists new p,
  Forall2 holds_column casts4 casts4' /\ Forall (column_ok64 (/ 1000) 10000 fuel_ex (fval (lit 1 0 : f64))) casts4'
  /\ surface64 linear_fun (dec 1 (-13)) 10000 casts4' stp4
  /\ bfs_conncomp1_wet_perim (jmd95_rho sdiv) (linear_coeffs_1 (nan : f64)) fuel_ex casts4 (lit 1 0 : f64) ml4
       10 [0; 0; 0; 0]%nat four_ptr four_ind 0 10 stp4 = Ok (new, [bottom; bottom; bottom; (nan, nan, p)])
  /\ isfinite p = true /\ ltb deep p = true.
Proof.
  exists 1%nat, lost_value. split; [exact casts4_holds|]. split; [exact (casts4_all _ colD_ok)|]. split; [exact stp4_surface|].
  split; [exact lost_run|]. exact lost_deep.
Qed.
Lemma wet_witness : Forall2 holds_column casts4 casts4' /\ Forall (column_ok64 (/ 1000) 10000 fuel_ex (fval (lit 1 0 : f64))) casts4'
  /\ Forall (cast_in (sea (/ 1000) (10000 - 1))) casts4' /\ csr 4 four_ptr four_ind /\ length casts4 = 4%nat /\ length ml4 = 4%nat
  /\ surface64 linear_fun (dec 1 (-13)) 10000 casts4' stp4 /\ (forall m, INR (length (listed four_ptr four_ind m)) <= powerRZ 2 32).
Proof.
  split; [exact casts4_holds|]. split; [exact (casts4_all _ colD_ok)|]. split; [apply casts4_all, colD_in; lra|]. split; [exact four_csr|].
  split; [reflexivity|]. split; [reflexivity|]. split; [exact stp4_surface|exact four_listed].
Qed.
