(** * Witnesses for surfaces and trajectories in binary64 *)
From Coq Require Import ZArith Bool Reals Lra Lia List SpecFloat.
From Flocq Require Import Core.Raux.
From Verif Require Import Num XR SF Res Arr XRlemmas M_ppinterp M_eos_base M_jmd95 M_jmdfwg06 M_gsw M_vertsolve M_traj S_eos S_float S_interp S_fzero S_fzero64
  S_domain S_traj S_vertsolve S_vert64 P_float P_fl P_ppinterp P_traj P_linear64.
Import ListNotations.
Local Open Scope R_scope.

Definition fl (l : list Z) : list f64 := map (fun z => lit z 0) l.
Definition fins (l : list Z) : list xr := map (fun z => Fin (IZR z)) l.

(** two columns of sea water; levels without data are NaN *)
Definition colA : column64 := (fl [34; 35; 35] ++ [nan], fl [20; 10; 4; 4], fl [10; 500; 2000; 2000])%Z.
Definition colA' : column := (fins [34; 35; 35] ++ [NaN], fins [20; 10; 4; 4], fins [10; 500; 2000; 2000])%Z.
Definition colB : column64 := (nan :: fl [34; 35; 35], fl [20; 25; 10; 5], fl [5; 10; 600; 2000])%Z.
Definition colB' : column := (NaN :: fins [34; 35; 35], fins [20; 25; 10; 5], fins [5; 10; 600; 2000])%Z.

Lemma h0 : holds (lit 0 0 : f64) (Fin 0). Proof. exact fl_zero. Qed.
Lemma h4 : holds (lit 4 0 : f64) (Fin 4). Proof. unfold holds. const64 4503599627370496%positive (-50)%Z. Qed.
Lemma h5 : holds (lit 5 0 : f64) (Fin 5). Proof. unfold holds. const64 5629499534213120%positive (-50)%Z. Qed.
Lemma h10 : holds (lit 10 0 : f64) (Fin 10). Proof. unfold holds. const64 5629499534213120%positive (-49)%Z. Qed.
Lemma h20 : holds (lit 20 0 : f64) (Fin 20). Proof. unfold holds. const64 5629499534213120%positive (-48)%Z. Qed.
Lemma h25 : holds (lit 25 0 : f64) (Fin 25). Proof. unfold holds. const64 7036874417766400%positive (-48)%Z. Qed.
Lemma h34 : holds (lit 34 0 : f64) (Fin 34). Proof. unfold holds. const64 4785074604081152%positive (-47)%Z. Qed.
Lemma h35 : holds (lit 35 0 : f64) (Fin 35). Proof. unfold holds. const64 4925812092436480%positive (-47)%Z. Qed.
Lemma h500 : holds (lit 500 0 : f64) (Fin 500). Proof. unfold holds. const64 8796093022208000%positive (-44)%Z. Qed.
Lemma h600 : holds (lit 600 0 : f64) (Fin 600). Proof. unfold holds. const64 5277655813324800%positive (-43)%Z. Qed.
Lemma h1000 : holds (lit 1000 0 : f64) (Fin 1000). Proof. unfold holds. const64 8796093022208000%positive (-43)%Z. Qed.
Lemma h1026 : holds (lit 1026 0 : f64) (Fin 1026). Proof. unfold holds. const64 4512395720392704%positive (-42)%Z. Qed.
Lemma h1093 : holds (lit 1093 0 : f64) (Fin 1093). Proof. unfold holds. const64 4807064836636672%positive (-42)%Z. Qed.
Lemma h2000 : holds (lit 2000 0 : f64) (Fin 2000). Proof. unfold holds. const64 8796093022208000%positive (-42)%Z. Qed.
Lemma hnan : holds (nan : f64) NaN. Proof. reflexivity. Qed.
Ltac held := first [exact h0|exact h4|exact h5|exact h10|exact h20|exact h25|exact h34|exact h35|exact h500|exact h600|exact h1000|exact h1093|exact h2000|exact hnan].
Ltac held_all := repeat (apply Forall2_cons; [held|]); apply Forall2_nil.

Lemma colA_holds : holds_column colA colA'. Proof. split; [|split]; held_all. Qed.
Lemma colB_holds : holds_column colB colB'. Proof. split; [|split]; held_all. Qed.

Definition lev (l : list Z) (i : nat) : R := IZR (nth i l 0%Z).
Lemma colA_cast : cast (fst (fst colA')) (snd (fst colA')) (snd colA') 0 3
  (lev [34; 35; 35]%Z) (lev [20; 10; 4]%Z) (lev [10; 500; 2000]%Z).
Proof.
  constructor; [constructor|reflexivity|]; simpl; try lia.
  - intros i Hi. destruct i as [|[|[|i]]]; try lia; reflexivity.
  - intros i Hi. destruct i as [|[|[|i]]]; try lia; reflexivity.
  - intros i _ Hi. destruct i as [|[|i]]; try lia; unfold lev; simpl; lra.
  - intros _. right. reflexivity.
  - intros i Hi. destruct i as [|[|[|i]]]; try lia; reflexivity.
Qed.
Lemma colB_cast : cast (fst (fst colB')) (snd (fst colB')) (snd colB') 1 4
  (lev [0; 34; 35; 35]%Z) (lev [0; 25; 10; 5]%Z) (lev [0; 10; 600; 2000]%Z).
Proof.
  constructor; [constructor|reflexivity|]; simpl; try lia.
  - intros i Hi. destruct i as [|[|[|[|i]]]]; try lia; reflexivity.
  - intros i Hi. destruct i as [|[|[|[|i]]]]; try lia; reflexivity.
  - intros i ? Hi. destruct i as [|[|[|i]]]; try lia; unfold lev; simpl; lra.
  - intros i Hi. assert (i = 0)%nat as -> by lia. right. reflexivity.
  - intros i Hi. destruct i as [|[|[|[|i]]]]; try lia; reflexivity.
Qed.

(** what is asked of every cast of a column need only be checked for one *)
Lemma one_cast S T P k K ss ts ps (Q : nat -> nat -> (nat -> R) -> Prop) : cast S T P k K ss ts ps ->
  (forall ps', (forall i, (k <= i < K)%nat -> ps' i = ps i) -> Q k K ps') ->
  forall k' K' ss' ts' ps', cast S T P k' K' ss' ts' ps' -> Q k' K' ps'.
Proof.
  intros HC H k' K' ss' ts' ps' HC'. assert (HB := cast_blk _ _ _ _ _ _ _ _ HC). assert (HB' := cast_blk _ _ _ _ _ _ _ _ HC').
  pose proof (block_valid_range _ _ _ _ _ _ HB') as E. rewrite (block_valid_range _ _ _ _ _ _ HB) in E. injection E as <- <-.
  apply H. intros i Hi. pose proof (blk_X _ _ _ _ _ _ HB i Hi) as E1. rewrite (blk_X _ _ _ _ _ _ HB' i Hi) in E1. congruence.
Qed.

Lemma p30 : powerRZ 2 (-30) <= 1. Proof. simpl. lra. Qed.
Lemma p900 : powerRZ 2 (-900) <= 1.
Proof. change 1 with (powerRZ 2 0). apply pow2_le. lia. Qed.

Definition fuel_ex : nat := Z.to_nat 10000.
Lemma fuel_ex_val : INR fuel_ex = 10000.
Proof. unfold fuel_ex. rewrite INR_IZR_INZ, Z2Nat.id by lia. reflexivity. Qed.
Lemma fuel_ex_13 : (13 <= fuel_ex)%nat.
Proof. apply INR_le. rewrite fuel_ex_val. simpl. lra. Qed.

Lemma colA_ok : any_cast colA' /\ cast_in (sea (/ 1000) 10000) colA' /\ column_spaced colA' /\ starts_below colA' /\ enough_fuel64 fuel_ex 1 colA'.
Proof.
  pose proof p30 as P30. pose proof p900 as P900. pose proof fuel_ex_val as Fv. pose proof fuel_ex_13 as F13.
  split; [|split; [|split; [|split]]].
  - right. exists 0%nat, 3%nat, (lev [34; 35; 35]%Z), (lev [20; 10; 4]%Z), (lev [10; 500; 2000]%Z). split; [exact colA_cast|lia].
  - apply (cast_in_block _ _ _ _ _ _ _ _ _ colA_cast). intros i Hi. destruct i as [|[|[|i]]]; try lia; unfold sea, box, lev; cbn [dS dT dP nth]; repeat split; lra.
  - refine (one_cast _ _ _ _ _ _ _ _ (fun k K ps => forall i, (k <= i)%nat -> (S i < K)%nat -> powerRZ 2 (-30) <= ps (S i) - ps i) colA_cast _).
    intros ps H i Hk Hi. rewrite !H by lia. destruct i as [|[|i]]; try lia; unfold lev; cbn [nth]; lra.
  - refine (one_cast _ _ _ _ _ _ _ _ (fun k K ps => powerRZ 2 (-900) <= ps k) colA_cast _).
    intros ps H. rewrite !H by lia. unfold lev. cbn [nth]. lra.
  - split; [exact F13|].
    refine (one_cast _ _ _ _ _ _ _ _ (fun k K ps => 5 * (ps (K - 1)%nat - ps k) / 1 + 1 <= INR fuel_ex) colA_cast _).
    intros ps H. rewrite !H by lia. rewrite Fv. unfold lev. cbn [nth Nat.sub]. lra.
Qed.
Lemma colB_ok : any_cast colB' /\ cast_in (sea (/ 1000) 10000) colB' /\ column_spaced colB' /\ starts_below colB' /\ enough_fuel64 fuel_ex 1 colB'.
Proof.
  pose proof p30 as P30. pose proof p900 as P900. pose proof fuel_ex_val as Fv. pose proof fuel_ex_13 as F13.
  split; [|split; [|split; [|split]]].
  - right. exists 1%nat, 4%nat, (lev [0; 34; 35; 35]%Z), (lev [0; 25; 10; 5]%Z), (lev [0; 10; 600; 2000]%Z). split; [exact colB_cast|lia].
  - apply (cast_in_block _ _ _ _ _ _ _ _ _ colB_cast). intros i Hi. destruct i as [|[|[|[|i]]]]; try lia; unfold sea, box, lev; cbn [dS dT dP nth]; repeat split; lra.
  - refine (one_cast _ _ _ _ _ _ _ _ (fun k K ps => forall i, (k <= i)%nat -> (S i < K)%nat -> powerRZ 2 (-30) <= ps (S i) - ps i) colB_cast _).
    intros ps H i Hk Hi. rewrite !H by lia. destruct i as [|[|[|i]]]; try lia; unfold lev; cbn [nth]; lra.
  - refine (one_cast _ _ _ _ _ _ _ _ (fun k K ps => powerRZ 2 (-900) <= ps k) colB_cast _).
    intros ps H. rewrite !H by lia. unfold lev. cbn [nth]. lra.
  - split; [exact F13|].
    refine (one_cast _ _ _ _ _ _ _ _ (fun k K ps => 5 * (ps (K - 1)%nat - ps k) / 1 + 1 <= INR fuel_ex) colB_cast _).
    intros ps H. rewrite !H by lia. rewrite Fv. unfold lev. cbn [nth Nat.sub]. lra.
Qed.

Lemma tol_one : finite64 (lit 1 0 : f64) /\ fval (lit 1 0 : f64) = 1 /\ tolerance_ok (fval (lit 1 0 : f64)).
Proof.
  destruct fl_one as [F V]. split; [exact F|]. split; [exact V|]. rewrite V. split; [exact p900|].
  change 1 with (powerRZ 2 0). apply pow2_le. lia.
Qed.

Lemma example_columns : Forall2 holds_column [colA; colB] [colA'; colB'] /\ Forall any_cast [colA'; colB']
  /\ Forall (cast_in (sea (/ 1000) 10000)) [colA'; colB'] /\ Forall column_spaced [colA'; colB']
  /\ Forall (enough_fuel64 fuel_ex (fval (lit 1 0 : f64))) [colA'; colB'].
Proof.
  destruct colA_ok as (A1 & A2 & A3 & A4 & A5), colB_ok as (B1 & B2 & B3 & B4 & B5), tol_one as (_ & -> & _).
  split; [exact (Forall2_cons _ _ colA_holds (Forall2_cons _ _ colB_holds (Forall2_nil _)))|].
  split; [exact (Forall_cons _ A1 (Forall_cons _ B1 (Forall_nil _)))|].
  split; [exact (Forall_cons _ A2 (Forall_cons _ B2 (Forall_nil _)))|].
  split; [exact (Forall_cons _ A3 (Forall_cons _ B3 (Forall_nil _)))|].
  exact (Forall_cons _ A5 (Forall_cons _ B5 (Forall_nil _))).
Qed.

Definition pchip_run_value : list bottle64 := Eval vm_compute in
  match vertsolve (pchip_coeffs_1_nonan (nan : f64)) fuel_ex (zero_potential (jmd95_rho sdiv) (lit 0 0) (lit 1026 0)) (lit 1 0 : f64) [colA; colB] with
  | Ok x => x | Err _ => [] end.
Lemma pchip_run : vertsolve (pchip_coeffs_1_nonan (nan : f64)) fuel_ex (zero_potential (jmd95_rho sdiv) (lit 0 0) (lit 1026 0)) (lit 1 0 : f64) [colA; colB]
  = Ok pchip_run_value.
Proof. vm_compute. reflexivity. Qed.
Definition potential_run_value : list bottle64 := Eval vm_compute in
  match vertsolve (linear_coeffs_1 (nan : f64)) fuel_ex (zero_potential (jmd95_rho sdiv) (lit 0 0) (lit 1026 0)) (lit 1 0 : f64) [colA; colB] with
  | Ok x => x | _ => [] end.
Lemma potential_run : vertsolve (linear_coeffs_1 (nan : f64)) fuel_ex (zero_potential (jmd95_rho sdiv) (lit 0 0) (lit 1026 0)) (lit 1 0 : f64) [colA; colB]
  = Ok potential_run_value.
Proof. vm_compute. reflexivity. Qed.

Definition trajectory_run_value : list bottle64 := Eval vm_compute in
  match neutral_trajectory (jmd95_rho sdiv) (linear_coeffs_1 (nan : f64)) fuel_ex [colA; colB] (lit 500 0) (lit 1 0 : f64) with
  | Ok x => x | _ => [] end.
Lemma trajectory_run : neutral_trajectory (jmd95_rho sdiv) (linear_coeffs_1 (nan : f64)) fuel_ex [colA; colB] (lit 500 0) (lit 1 0 : f64)
  = Ok trajectory_run_value.
Proof. vm_compute. reflexivity. Qed.

Lemma colA_guess : guess_apart 500 colA'.
Proof.
  refine (one_cast _ _ _ _ _ _ _ _ (fun k K ps => let g := Rmin (Rmax 500 (ps k)) (ps (K - 1)%nat) in apart (ps k) g /\ apart g (ps (K - 1)%nat)) colA_cast _).
  intros ps H. rewrite !H by lia. unfold lev. cbn [nth Nat.sub]. cbv zeta. rewrite Rmax_left by lra. rewrite Rmin_left by lra.
  assert (P : powerRZ 2 (-1000) <= 1) by (change 1 with (powerRZ 2 0); apply pow2_le; lia). unfold apart. lra.
Qed.

(** ** Fresh water: interpolating down to salinity zero gives a negative number, hence NaN densities *)
Definition colF : column64 := (fl [25; 0], fl [0; 0], fl [0; 1093])%Z.
Definition colF' : column := (fins [25; 0], fins [0; 0], fins [0; 1093])%Z.
Definition fuelF : nat := Z.to_nat 12000.
Definition halfF : f64 := lit 5 (-1).
Definition fresh_value : bottle64 := Eval vm_compute in
  match vertsolve (linear_coeffs_1 (nan : f64)) fuelF (zero_potential (jmd95_rho sdiv) (lit 0 0) (lit 1000 0)) halfF [colF] with
  | Ok [x] => x | _ => (nan, nan, nan) end.
Lemma fresh_run : vertsolve (linear_coeffs_1 (nan : f64)) fuelF (zero_potential (jmd95_rho sdiv) (lit 0 0) (lit 1000 0)) halfF [colF]
  = Ok [fresh_value].
Proof. vm_compute. reflexivity. Qed.
Lemma colF_holds : holds_column colF colF'. Proof. split; [|split]; held_all. Qed.
Lemma colF_cast : cast (fst (fst colF')) (snd (fst colF')) (snd colF') 0 2 (lev [25; 0]%Z) (lev [0; 0]%Z) (lev [0; 1093]%Z).
Proof.
  constructor; [constructor|reflexivity|]; simpl; try lia.
  - intros i Hi. destruct i as [|[|i]]; try lia; reflexivity.
  - intros i Hi. destruct i as [|[|i]]; try lia; reflexivity.
  - intros i _ Hi. destruct i as [|i]; try lia; unfold lev; simpl; lra.
  - intros i Hi. destruct i as [|[|i]]; try lia; reflexivity.
Qed.
Lemma colF_ok : any_cast colF' /\ cast_in (sea 0 10000) colF' /\ column_spaced colF' /\ enough_fuel64 fuelF (/ 2) colF'.
Proof.
  pose proof p30 as P30. assert (Fv : INR fuelF = 12000) by (unfold fuelF; rewrite INR_IZR_INZ, Z2Nat.id by lia; reflexivity).
  split; [|split; [|split]].
  - right. exists 0%nat, 2%nat, (lev [25; 0]%Z), (lev [0; 0]%Z), (lev [0; 1093]%Z). split; [exact colF_cast|lia].
  - apply (cast_in_block _ _ _ _ _ _ _ _ _ colF_cast). intros i Hi. destruct i as [|[|i]]; try lia; unfold sea, box, lev; cbn [dS dT dP nth]; repeat split; lra.
  - refine (one_cast _ _ _ _ _ _ _ _ (fun k K ps => forall i, (k <= i)%nat -> (S i < K)%nat -> powerRZ 2 (-30) <= ps (S i) - ps i) colF_cast _).
    intros ps H i Hk Hi. rewrite !H by lia. destruct i as [|i]; try lia; unfold lev; cbn [nth]; lra.
  - split; [apply INR_le; rewrite Fv; simpl; lra|].
    refine (one_cast _ _ _ _ _ _ _ _ (fun k K ps => 5 * (ps (K - 1)%nat - ps k) / (/ 2) + 1 <= INR fuelF) colF_cast _).
    intros ps H. rewrite !H by lia. rewrite Fv. unfold lev. cbn [nth Nat.sub]. lra.
Qed.

Lemma fresh_pressure : finite64 (snd fresh_value) /\ 1092 <= fval (snd fresh_value) <= 1093.
Proof.
  unfold fresh_value. cbn [snd]. split.
  - split; [reflexivity|split; [lia|right; lia]].
  - rewrite fval_neg. cbn [Z.pow Z.pow_pos Pos.iter Z.mul Pos.mul]. lra.
Qed.

Lemma fresh_density s : 0 <= s <= 6 / 100 -> Rabs (jm_rho s 0 0 - 1000) > / 10.
Proof.
  intros [L U]. unfold jm_rho. replace (1 - 0 / jm_K s 0 0) with 1 by (unfold Rdiv; ring). unfold Rdiv. rewrite Rinv_1, Rmult_1_r.
  unfold jm_rho0, jm_rho0_terms, S_eos.poly. cbn [fold_right].
  pose proof (sqrt_pos s) as Q. pose proof (sqrt_sqrt s L) as E. set (q := sqrt s) in *.
  assert (U' : q <= 1) by nra. unfold dec. simpl powerRZ.
  rewrite Rabs_left; simpl pow; nra.
Qed.

Lemma fresh_wrong : ~ surface_point64 linear_fun (potential_of jm_rho 0 1000) (/ 2) (dec 1 (-13)) (/ 10) colF' fresh_value.
Proof.
  pose proof fresh_pressure as [_ Hp].
  assert (NF : fresh_value <> (nan, nan, nan)) by (intros E; discriminate E).
  intros [[_ E]|(gS & gT & lo & hi & [(k & K & ss & ts & ps & HC & HK & RS & RT & _ & _ & -> & ->) _ _] & Hx)]; [exact (NF E)|].
  cbv zeta in Hx. destruct Hx as [[E _]|(s & t & p & r & E & _ & Ip & _ & _ & Ir & Hr & Dr)]; [exact (NF E)|].
  rewrite E in Hp. cbn [snd] in Hp.
  assert (HB := cast_blk _ _ _ _ _ _ _ _ HC). pose proof (block_valid_range _ _ _ _ _ _ HB) as V.
  rewrite (block_valid_range _ _ _ _ _ _ (cast_blk _ _ _ _ _ _ _ _ colF_cast)) in V. injection V as <- <-.
  assert (P0 : ps 0%nat = 0) by (pose proof (blk_X _ _ _ _ _ _ HB 0%nat ltac:(lia)) as G; cbn in G; injection G as G; lra).
  assert (P1 : ps 1%nat = 1093) by (pose proof (blk_X _ _ _ _ _ _ HB 1%nat ltac:(lia)) as G; cbn in G; injection G as G; lra).
  assert (S0 : ss 0%nat = 25) by (pose proof (blk_Y _ _ _ _ _ _ HB 0%nat ltac:(lia)) as G; cbn in G; injection G as G; lra).
  assert (S1 : ss 1%nat = 0) by (pose proof (blk_Y _ _ _ _ _ _ HB 1%nat ltac:(lia)) as G; cbn in G; injection G as G; lra).
  assert (T0 : ts 0%nat = 0) by (pose proof (cast_T _ _ _ _ _ _ _ _ HC 0%nat ltac:(lia)) as G; cbn in G; injection G as G; lra).
  assert (T1 : ts 1%nat = 0) by (pose proof (cast_T _ _ _ _ _ _ _ _ HC 1%nat ltac:(lia)) as G; cbn in G; injection G as G; lra).
  cbn [Nat.sub] in *. rewrite P0, P1 in *.
  assert (IP : in_piece 0 2 (from 0 ps) r 0) by (repeat split; try lia; unfold from; cbn [Nat.add]; rewrite ?P0, ?P1; lra).
  pose proof (RS r 0%nat IP) as GS. pose proof (RT r 0%nat IP) as GT. unfold secant, from in GS, GT. cbn [Nat.add] in GS, GT.
  rewrite P0, P1, S0, S1 in GS. rewrite P0, P1, T0, T1 in GT.
  replace (gT r) with 0 in Hr by (rewrite GT; field).
  assert (Br : brent_tol (fval p) (/ 2) * (1 + powerRZ 2 (-50)) <= 1 + / 10).
  { unfold brent_tol, Reps. rewrite Rabs_pos_eq by lra. simpl powerRZ. lra. }
  pose proof (Rabs_le_inv _ _ (Rle_trans _ _ _ Dr Br)) as Dr2.
  assert (Lr : 1092 - 2 <= r) by (revert Dr2 Hp; generalize (fval p); intros; lra).
  apply (Rgt_not_le _ _ (fresh_density (gS r) ltac:(rewrite GS; lra))). exact Hr.
Qed.

Lemma fresh_refuted : exists c c' fuel (tol : f64) x, finite64 tol /\ tolerance_ok (fval tol)
  /\ holds_column c c' /\ any_cast c' /\ cast_in (sea 0 10000) c' /\ column_spaced c' /\ enough_fuel64 fuel (fval tol) c'
  /\ vertsolve (linear_coeffs_1 (nan : f64)) fuel (zero_potential (jmd95_rho sdiv) (lit 0 0) (lit 1000 0)) tol [c] = Ok [x]
  /\ ~ surface_point64 linear_fun (potential_of jm_rho 0 1000) (fval tol) (dec 1 (-13)) (/ 10) c' x.
Proof.
  exists colF, colF', fuelF, halfF, fresh_value.
  assert (F : finite64 halfF) by exact (proj1 fl_half). assert (V : fval halfF = / 2) by exact (proj2 fl_half).
  destruct colF_ok as (H1 & H2 & H3 & H4). rewrite V. split; [exact F|]. split.
  - split; [apply Rle_trans with (powerRZ 2 (-1)); [apply pow2_le; lia|simpl; lra]|].
    apply Rle_trans with (powerRZ 2 0); [simpl; lra|apply pow2_le; lia].
  - split; [exact colF_holds|]. split; [exact H1|]. split; [exact H2|]. split; [exact H3|]. split; [exact H4|].
    split; [exact fresh_run|exact fresh_wrong].
Qed.

Lemma trajectory_columns : cast (fst (fst colA')) (snd (fst colA')) (snd colA') 0 3 (lev [34; 35; 35]%Z) (lev [20; 10; 4]%Z) (lev [10; 500; 2000]%Z)
  /\ lev [10; 500; 2000]%Z 0 <= fval (lit 500 0 : f64) <= lev [10; 500; 2000]%Z 2
  /\ (any_cast colB' /\ cast_in (sea (/ 1000) 10000) colB' /\ column_spaced colB' /\ starts_below colB' /\ enough_fuel64 fuel_ex 1 colB').
Proof.
  split; [exact colA_cast|]. split; [|exact colB_ok]. assert (V : fval (lit 500 0 : f64) = 500) by exact (proj2 h500).
  rewrite V. unfold lev. cbn [nth]. lra.
Qed.
