(** * Witnesses for neutrality errors in binary64 *)
From Coq Require Import String ZArith Bool Reals Lra Lia List SpecFloat.
From Verif Require Import Num XR SF Res Arr Nd M_eostools M_lib M_ntp M_vertsolve M_surfaces S_eos S_float S_fzero64 S_interp S_domain S_named S_traj S_vertsolve
  S_lib S_mixed_layer S_surfaces S_vert64 S_entry64 S_ntp S_ntp64 P_named P_linear64 Ex_vert64 Ex_entry64.
Import ListNotations.
Local Open Scope R_scope.

Notation n x := (lit x 0 : f64).
(** two bottles of sea water, one without salinity, one without temperature *)
Definition nbottles : list bottle64 := [(n 34, n 20, n 10); (n 35, n 10, n 500); (nan, n 4, n 2000); (n 35, nan, n 600)].
Definition nwaters : list (option (R * R * R)) := [Some (34, 20, 10); Some (35, 10, 500); None; None].
Definition nedges : list (nat * nat) := [(0, 1); (1, 2); (3, 0)]%nat.
Definition ndist : @geom f64 := Ar [n 10; n 20; n 500].
Definition nperp : @geom f64 := Sc (n 5).

Lemma within_of (x : f64) r : S_vert64.holds x (Fin r) -> S_float.within x r (dec 1 (-13)).
Proof.
  intros [F V]. split; [exact F|]. rewrite V. replace (r - r) with 0 by ring. rewrite Rabs_R0. unfold dec. cbn [powerRZ]. left.
  apply Rmult_lt_0_compat; [lra|]. apply Rinv_0_lt_compat, pow_lt. lra.
Qed.

Lemma n_bottles : Forall2 (bottle_holds (sea (/ 1000) 10000) (dec 1 (-13))) nbottles nwaters.
Proof.
  assert (G : forall s t p vs vt vp, S_vert64.holds s (Fin vs) -> S_vert64.holds t (Fin vt) -> S_vert64.holds p (Fin vp) -> / 1000 <= vs <= 42 -> -3 <= vt <= 40 -> 0 <= vp <= 10000 ->
    bottle_holds (sea (/ 1000) 10000) (dec 1 (-13)) (s, t, p) (Some (vs, vt, vp))).
  { intros s t p vs vt vp Hs Ht [Fp Vp] Bs Bt Bp. split; [exact (within_of _ _ Hs)|]. split; [exact (within_of _ _ Ht)|]. split; [exact Fp|]. split; [exact Vp|].
    cbn [sea box dS dT dP]. unfold upto. repeat split; lra. }
  destruct h35 as [F35 V35].
  apply Forall2_cons; [apply (G _ _ _ 34 20 10 h34 h20 h10); lra|]. apply Forall2_cons; [apply (G _ _ _ 35 10 500 h35 h10 h500); lra|].
  apply Forall2_cons; [left; reflexivity|]. apply Forall2_cons; [|apply Forall2_nil].
  right. split; [reflexivity|]. split; [exact F35|]. rewrite V35. apply Rabs_le. lra.
Qed.

Lemma moderate_in r : 1 <= r <= 1000 -> moderate r.
Proof.
  intros H. unfold moderate. assert (E : powerRZ 2 (-100) <= 1).
  { change (-100)%Z with (- (100))%Z. rewrite powerRZ_neg'. rewrite <- Rinv_1. apply Rinv_le_contravar; [lra|]. change 100%Z with (Z.of_nat 100). rewrite <- pow_powerRZ. apply pow_R1_Rle. lra. }
  assert (E2 : 1024 <= powerRZ 2 100).
  { change 100%Z with (Z.of_nat 100). rewrite <- pow_powerRZ. replace 1024 with (2 ^ 10) by (simpl; lra). apply Rle_pow; [lra|lia]. }
  lra.
Qed.

Lemma n_distances : distances64 ndist 3 [10; 20; 500] /\ distances64 nperp 3 [5; 5; 5] /\ Forall moderate [10; 20; 500] /\ Forall (fun w => w = 0 \/ moderate w) [5; 5; 5]
  /\ INR 3 <= powerRZ 2 40.
Proof.
  split; [|split; [|split; [|split]]].
  - split; [reflexivity|]. left. eexists. split; [reflexivity|]. repeat (apply Forall2_cons; [first [exact h10|exact h20|exact h500]|]). apply Forall2_nil.
  - split; [reflexivity|]. right. destruct h5 as [F5 V5]. exists (n 5). split; [reflexivity|]. split; [exact F5|]. rewrite V5. reflexivity.
  - repeat (apply Forall_cons; [apply moderate_in; lra|]). apply Forall_nil.
  - repeat (apply Forall_cons; [right; apply moderate_in; lra|]). apply Forall_nil.
  - change 40%Z with (Z.of_nat 40). rewrite <- pow_powerRZ. simpl INR. replace 3 with (3 * 1) by lra. apply Rle_trans with (2 ^ 2); [simpl; lra|apply Rle_pow; [lra|lia]].
Qed.

Lemma n_partials name v : named_eos name v -> exists vs vt, partials (seas 1) (at_depth 1 v) vs vt.
Proof.
  intros H. destruct (process_named name v None None 1 true H) as (f & g & vs & vt & _ & _ & G); [left; split; [left|]; reflexivity|]. exists vs, vt. exact (gs_diff _ _ _ _ _ G).
Qed.

(** the two columns of Ex_entry64, with one edge *)
Definition egrid : @gridarg f64 := GDict (Some [(0, 1)%nat]) (Some (Sc (n 1000))) (Some (Sc (n 500))).
Lemma e_geometry : geometry64 [2%nat] egrid [(0, 1)%nat] [1000] [500].
Proof.
  destruct h1000 as [F1 V1], h500 as [F5 V5].
  exists (Sc (n 1000)), (Sc (n 500)). split; [reflexivity|]. split; [apply Forall_cons; [cbn; lia|apply Forall_nil]|]. split.
  { change 40%Z with (Z.of_nat 40). rewrite <- pow_powerRZ. cbn [length INR]. apply pow_R1_Rle. lra. }
  split; [split; [reflexivity|right; exists (n 1000); split; [reflexivity|split; [exact F1|rewrite V1; reflexivity]]]|].
  split; [split; [reflexivity|right; exists (n 500); split; [reflexivity|split; [exact F5|rewrite V5; reflexivity]]]|].
  split; [apply Forall_cons; [apply moderate_in; lra|apply Forall_nil]|apply Forall_cons; [right; apply moderate_in; lra|apply Forall_nil]].
Qed.

(** the programs, run *)
Definition n_run := match @make_eos_s_t f64 sfNum sdiv (AStr "jmd95") None None with
  | Ok (F2 f) => Some (ntp_epsilon_errors f nbottles (GTuple nedges), ntp_epsilon_errors_norms f nbottles (GDict (Some nedges) (Some ndist) (Some nperp)))
  | _ => None end.
Definition n_run_value := Eval vm_compute in n_run.
Lemma n_runs : exists x rms mav, n_run_value = Some (Ok [x; nan; nan], Ok (rms, mav)) /\ n_run = n_run_value.
Proof. do 3 eexists. split; [unfold n_run_value; reflexivity|]. vm_compute. reflexivity. Qed.

Definition d_run : iso_args := mkIso RNone None (APin (PinInt (-1))) (PFloat (lit 600 0)) (VInt (-1)) (lit 1 0) (AStr "jmd95") None None true egrid "linear".
Definition d_run_value := Eval vm_compute in
  match potential_surf (nan : f64) fuel_ex eS eT eP noindex d_run with Ok (_, _, _, d) => d_errors d | _ => None end.
Lemma d_runs : exists s t p d rms mav, potential_surf (nan : f64) fuel_ex eS eT eP noindex d_run = Ok (s, t, p, d) /\ d_errors d = d_run_value
  /\ d_run_value = Some (rms, mav, 2%nat).
Proof. do 6 eexists. split; [vm_compute; reflexivity|]. split; [unfold d_run_value; reflexivity|]. unfold d_run_value. reflexivity. Qed.

Definition d_run_pchip : iso_args := mkIso RNone None (APin (PinInt (-1))) (PFloat (lit 600 0)) (VInt (-1)) (lit 1 0) (AStr "jmd95") None None true egrid "pchip".
Definition d_run_pchip_value := Eval vm_compute in
  match potential_surf (nan : f64) fuel_ex eS eT eP noindex d_run_pchip with Ok (_, _, _, d) => d_errors d | _ => None end.
Lemma d_runs_pchip : exists s t p d rms mav, potential_surf (nan : f64) fuel_ex eS eT eP noindex d_run_pchip = Ok (s, t, p, d) /\ d_errors d = d_run_pchip_value
  /\ d_run_pchip_value = Some (rms, mav, 2%nat).
Proof. do 6 eexists. split; [vm_compute; reflexivity|]. split; [unfold d_run_pchip_value; reflexivity|]. unfold d_run_pchip_value. reflexivity. Qed.
