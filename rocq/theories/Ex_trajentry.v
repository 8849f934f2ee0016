(** * Witnesses for the entry points of traj.py *)
From Coq Require Import String ZArith Bool Reals Lra Lia List SpecFloat.
From Verif Require Import Num XR SF Res Arr Nd M_lib M_eostools M_surfaces M_trajentry S_eos S_interp S_float S_fzero64 S_traj S_domain S_named S_mixed_layer
  S_vertsolve S_surfaces S_vert64 S_entry64 S_trajentry Ex_ppinterp Ex_traj Ex_surfaces Ex_vert64 Ex_entry64.
Import ListNotations.
Local Open Scope R_scope.

Lemma s_beyond : beyond (exY, exT, exX) 4.
Proof. exists 1%nat, 4%nat, exys, exts, exxs. split; [exact ex_cast|]. split; [lia|]. cbn. lra. Qed.

Lemma trajentry_witness :
  named_eos "jmd95" jm_rho /\ pressure_factor None None 1 /\ named_interp "linear" linear_fun
  /\ water_columns sS sT sP (VName "z") [] 5 [2%nat] (fun _ => (exY, exT, exX))
  /\ [] ++ [2%nat] = [2%nat] /\ sequence 2 (fun _ : list nat => (exY, exT, exX)) = [(exY, exT, exX); (exY, exT, exX)]
  /\ has_pressure (exY, exT, exX) 2 /\ beyond (exY, exT, exX) 4 /\ dP (seas 1) 4
  /\ any_cast (exY, exT, exX) /\ cast_in (seas 1) (exY, exT, exX) /\ enough_fuel 13 1 (exY, exT, exX)
  /\ dS (seas 1) 5 /\ dT (seas 1) 1 /\ dP (seas 1) 2.
Proof.
  destruct surfaces_witness as (A1 & A2 & A3 & A4 & A5 & A6 & A7 & _ & _ & _ & A8 & A9 & A10 & A11).
  split; [exact A1|]. split; [exact A2|]. split; [exact A3|]. split; [exact A4|]. split; [reflexivity|]. split; [reflexivity|].
  split; [exact A8|]. split; [exact s_beyond|]. split; [cbn; unfold upto; lra|]. split; [exact A5|]. split; [exact A6|]. split; [exact A7|]. split; [exact A10|]. split; [exact A11|exact A9].
Qed.

(** a three-dimensional ocean and a single cast are no sequences of casts; and a sequence may be empty *)
Definition one_cast_data (l : list xr) : @data xr := mk_data (mk_nd [5]%nat l) None [].
Lemma one_cast_columns : water_columns (one_cast_data exY) (one_cast_data exT) (one_cast_data exX) (VInt 0) [] 5 [] (fun _ => (exY, exT, exX)).
Proof.
  assert (C : forall l : list xr, length l = 5%nat -> cast_at (at_ (mk_nd [5]%nat l)) 5 [] [] l).
  { intros l L. split; [exact L|]. intros k Hk. unfold at_. cbn [elems shape app ravel prod fold_right]. f_equal. lia. }
  constructor.
  - split; reflexivity.
  - split; reflexivity.
  - lia.
  - split; [split; [intros ds Ed; discriminate Ed|]|intros ds Ed; discriminate Ed]. intros _. exists 0%Z. split; [reflexivity|]. split; [cbn; lia|left; reflexivity].
  - split; [reflexivity|]. left. split; [reflexivity|]. intros h1 h2 V1 V2. inversion V1. inversion V2. apply C. reflexivity.
  - intros h1 h2 V1 V2. inversion V1. inversion V2. split; apply C; reflexivity.
Qed.

Definition empty_data : @data xr := mk_data (mk_nd [0; 5]%nat []) None [].
Lemma empty_columns : water_columns empty_data empty_data empty_data (VInt (-1)) [0%nat] 5 [] (fun _ => ([], [], [])).
Proof.
  assert (V : forall h, ~ valid [0%nat] h) by (intros h V; inversion V; lia).
  constructor.
  - split; reflexivity.
  - split; reflexivity.
  - lia.
  - split; [split; [intros ds Ed; discriminate Ed|]|intros ds Ed; discriminate Ed]. intros _. exists (-1)%Z. split; [reflexivity|]. split; [cbn; lia|right; reflexivity].
  - split; [reflexivity|]. left. split; [reflexivity|]. intros h1 h2 V1 _. destruct (V _ V1).
  - intros h1 h2 V1 _. destruct (V _ V1).
Qed.

Lemma trajentry64_witness :
  coordinate64 None None 1 10000 /\ water_columns eS eT eP (VInt (-1)) [2%nat] 4 [] ecol
  /\ [2%nat] ++ [] = [2%nat] /\ sequence 2 ecol = [colA; colB]
  /\ holds_column colA colA' /\ cast_in (sea (/ 1000) 10000) colA' /\ column_spaced colA'
  /\ Forall2 holds_column [colB] [colB']
  /\ Forall (fun c => any_cast c /\ cast_in (sea (/ 1000) 10000) c /\ column_spaced c /\ starts_below c) [colB']
  /\ finite64 (lit 500 0 : f64) /\ has_pressure colA' (fval (lit 500 0 : f64)) /\ Forall (enough_fuel64 fuel_ex (fval (lit 1 0 : f64))) [colB']
  /\ finite64 (lit 5 0 : f64) /\ beyond colA' (fval (lit 5 0 : f64)) /\ 0 <= fval (lit 5 0 : f64) <= 10000.
Proof.
  destruct colA_ok as (A1 & A2 & A3 & A4 & A5), colB_ok as (B1 & B2 & B3 & B4 & B5), h500 as [F500 V500], h5 as [F5 V5].
  split; [exact (proj1 e_coordinate)|]. split; [exact e_columns|]. split; [reflexivity|]. split; [reflexivity|].
  split; [exact colA_holds|]. split; [exact A2|]. split; [exact A3|]. split; [constructor; [exact colB_holds|constructor]|].
  split; [constructor; [exact (conj B1 (conj B2 (conj B3 B4)))|constructor]|]. split; [exact F500|].
  split; [exists 0%nat, 3%nat, (lev [34; 35; 35]%Z), (lev [20; 10; 4]%Z), (lev [10; 500; 2000]%Z); split; [exact colA_cast|]; split; [lia|];
          rewrite V500; unfold lev; cbn [nth Nat.sub]; lra|].
  split; [constructor; [rewrite (proj1 (proj2 tol_one)); exact B5|constructor]|].
  split; [exact F5|].
  split; [exists 0%nat, 3%nat, (lev [34; 35; 35]%Z), (lev [20; 10; 4]%Z), (lev [10; 500; 2000]%Z); split; [exact colA_cast|]; split; [lia|];
          rewrite V5; unfold lev; cbn [nth Nat.sub]; lra|].
  rewrite V5. lra.
Qed.

Definition te_args : @traj_args f64 := mkTraj (lit 1 0) "linear" (AStr "jmd95") None None.
Definition te_value := Eval vm_compute in match neutral_trajectory_kw (nan : f64) fuel_ex eS eT eP (lit 500 0) (VInt (-1)) te_args with Ok x => Some x | _ => None end.
Lemma te_runs : exists r, te_value = Some r /\ neutral_trajectory_kw (nan : f64) fuel_ex eS eT eP (lit 500 0) (VInt (-1)) te_args = Ok r.
Proof. eexists. split; [unfold te_value; reflexivity|]. vm_compute. reflexivity. Qed.
