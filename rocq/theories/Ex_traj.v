(** * Witnesses for the trajectory properties *)
From Coq Require Import ZArith Bool Reals Lra Lia List SpecFloat.
From Verif Require Import Num XR SF Res Arr XRlemmas M_ppinterp M_traj S_interp S_fzero S_traj P_domain P_ppinterp P_traj Ex_ppinterp.
Import ListNotations.
Local Open Scope R_scope.

(** the cast of Ex_ppinterp with temperatures *)
Definition exT : list xr := [NaN; Fin 2; Fin 1; Fin 0; NaN].
Definition exts (i : nat) : R := match i with 1%nat => 2 | 2%nat => 1 | _ => 0 end.

Lemma ex_cast : cast exY exT exX 1 4 exys exts exxs.
Proof.
  constructor; [exact ex_block|reflexivity|].
  intros i Hi. destruct i as [|[|[|[|i]]]]; try lia; reflexivity.
Qed.

(** a nonlinear equation of state *)
Definition exrho (s t p : R) : R := s - t * t * p.
Definition exeos (s t p : xr) : res xr := Ok (s - t * t * p)%num.

Lemma exeos_real : eos_real exeos exrho.
Proof. intros s t p. reflexivity. Qed.

(** ranges of salinity, temperature and pressure *)
Definition exD : domain := box 0 40 (-2) 35 0 6000.

Lemma exeos_on D : eos_on D exeos exrho.
Proof. intros s t p _ _ _. reflexivity. Qed.
Lemma ex_cast_in : cast_in exD (exY, exT, exX).
Proof.
  apply (cast_in_block _ _ _ _ _ _ _ _ _ ex_cast). intros i Hi. destruct i as [|[|[|[|i]]]]; try lia; cbn; unfold upto; lra.
Qed.

Lemma exrho_continuous D : continuous3 D exrho.
Proof.
  intros a b c x Ha Hb Hc _ _ _. unfold exrho.
  apply (continuity_pt_minus a (fun x => b x * b x * c x)); auto.
  apply (continuity_pt_mult (fun x => b x * b x) c); auto.
  apply (continuity_pt_mult b b); auto.
Qed.

Lemma ex_any_cast : any_cast (exY, exT, exX).
Proof. right. exists 1%nat, 4%nat, exys, exts, exxs. split; [exact ex_cast|lia]. Qed.

Lemma ex_enough_fuel : enough_fuel 13 1 (exY, exT, exX).
Proof.
  split; [lia|]. intros k K ss ts ps HC.
  pose proof (cast_blk _ _ _ _ _ _ _ _ HC) as HB.
  pose proof (block_valid_range _ _ _ _ _ _ HB) as E. rewrite (block_valid_range _ _ _ _ _ _ ex_block) in E.
  injection E as <- <-.
  pose proof (blk_X _ _ _ _ _ _ HB 1%nat ltac:(lia)) as E1. pose proof (blk_X _ _ _ _ _ _ HB 3%nat ltac:(lia)) as E3.
  cbn in E1, E3. injection E1 as E1. injection E3 as E3. cbn [Nat.sub]. rewrite <- E1, <- E3.
  replace (INR 13) with 13 by (cbn; lra). lra.
Qed.

Lemma ex_link : cast exY exT exX 1 4 exys exts exxs /\ cast_in exD (exY, exT, exX)
  /\ eos_on exD exeos exrho /\ continuous3 exD exrho /\ dS exD 2 /\ dT exD 1 /\ dP exD 4.
Proof.
  split; [exact ex_cast|]. split; [exact ex_cast_in|]. split; [apply exeos_on|]. split; [apply exrho_continuous|].
  cbn. unfold upto. lra.
Qed.

Lemma ex_short_cast : short_cast [NaN; Fin 1] [NaN; Fin 2].
Proof.
  right. exists 1%nat, (fun _ => 2), (fun _ => 1). constructor; try reflexivity; simpl; try lia.
  - intros i Hi. assert (i = 1)%nat as -> by lia. reflexivity.
  - intros i Hi. assert (i = 1)%nat as -> by lia. reflexivity.
  - intros i Hi. assert (i = 0)%nat as -> by lia. left. reflexivity.
Qed.

(** binary64: three casts; the third one has a single valid bottle *)
Definition fl (l : list Z) : list f64 := map (fun z => lit z 0) l.
Definition fcasts : list (list f64 * list f64 * list f64) :=
  [(fl [1; 2; 3], fl [9; 9; 9], fl [0; 100; 200]);
   (fl [2; 3; 4], fl [9; 9; 9], fl [0; 100; 200]);
   ([lit 3 0; nan], fl [9; 9], fl [0; 100])]%Z.
Definition feos (s t p : f64) : res f64 := Ok s.

Lemma traj_run :
  neutral_trajectory feos (linear_coeffs_1 nan) 100 fcasts (lit 150 0) (lit 1 (-6))
  = Ok [(lit 25 (-1), lit 9 0, lit 150 0); (lit 25 (-1), lit 9 0, lit 49999999999999979 (-15)); (nan, nan, nan)].
Proof. vm_compute. reflexivity. Qed.

(** the first cast is on land: no result *)
Lemma traj_land :
  neutral_trajectory feos (linear_coeffs_1 nan) 100 [([nan; nan], [nan; nan], [lit 0 0; lit 1 0])] (lit 5 (-1)) (lit 1 (-6))
  = Err OutOfBounds.
Proof. vm_compute. reflexivity. Qed.

Lemma ex_total : any_cast (exY, exT, exX) /\ cast_in exD (exY, exT, exX) /\ enough_fuel 13 1 (exY, exT, exX) /\ exxs 1 <= 2 <= exxs (4 - 1).
Proof. split; [exact ex_any_cast|]. split; [exact ex_cast_in|]. split; [exact ex_enough_fuel|]. simpl. lra. Qed.
