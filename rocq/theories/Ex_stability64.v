(** * Witnesses for static stability in binary64 *)
From Coq Require Import String ZArith Bool Reals Lra Lia List SpecFloat.
From Verif Require Import Num XR SF Res Arr Nd XRlemmas M_lib M_eos_base M_jmd95 M_eostools M_stability S_eos S_float S_domain S_named S_vertsolve
  S_lib S_mixed_layer S_surfaces S_vert64 S_entry64 S_stability S_stability64 P_float P_fl P_holds Ex_vert64 Ex_entry64 Ex_ml64.
Import ListNotations.
Local Open Scope R_scope.

Definition jm64 : f64 -> f64 -> f64 -> res f64 := jmd95_rho sdiv.

Ltac known := intros i s t p Hs Ht Hp; repeat (destruct i as [|i]; cbn in Hs, Ht, Hp;
  [injection Hs as <-; injection Ht as <-; injection Hp as <-; split;
    [first [left; reflexivity|right; do 2 eexists; split; [reflexivity|]; split; [reflexivity|]; cbn [sea box dS dT]; unfold upto; lra]
    |right; eexists; split; [reflexivity|]; cbn [sea box dP]; unfold upto; lra]|]); destruct i; discriminate.
Lemma A_known : known_levels (sea (/ 1000) 10000) colA'. Proof. known. Qed.
Lemma B_known : known_levels (sea (/ 1000) 10000) colB'. Proof. known. Qed.
Lemma U_known : known_levels (sea (/ 1000) 10000) colU'. Proof. known. Qed.

Lemma U_profile : profile (fst (fst colU')) (snd (fst colU')) (snd colU') 0 3 (lev [34; 35; 35]%Z) (lev [20; 4; 10]%Z) (lev [10; 500; 2000]%Z).
Proof.
  constructor; cbn [colU' fst snd]; try reflexivity; try (cbn; lia).
  - intros i Hi. destruct i as [|[|[|i]]]; try lia; reflexivity.
  - intros i Hi. destruct i as [|[|[|i]]]; try lia; reflexivity.
  - intros i Hi. destruct i as [|[|[|i]]]; try lia; reflexivity.
  - intros i _ Hi. destruct i as [|[|i]]; try lia; unfold lev; simpl; lra.
Qed.
Lemma U_waters : waters (sea (/ 1000) 10000) 0 3 (lev [34; 35; 35]%Z) (lev [20; 4; 10]%Z) /\ pressures (sea (/ 1000) 10000) 0 3 (lev [10; 500; 2000]%Z).
Proof.
  split; [|split].
  - intros i Hi. cbn [sea box dS dT]. unfold upto. destruct i as [|[|[|i]]]; try lia; unfold lev; cbn [nth]; lra.
  - intros i Hi. cbn [sea box dP]. unfold upto. destruct i as [|[|[|i]]]; try lia; unfold lev; cbn [nth]; lra.
  - intros i _ Hi. destruct i as [|[|i]]; try lia; unfold lev; simpl; lra.
Qed.
Lemma U_no_gap : no_gap (fst (fst colU')).
Proof.
  intros i j l x y z Hij Hi Hj Hl _ _. cbn in Hl. destruct l as [|[|[|l]]]; cbn in Hl; try (destruct l; discriminate); injection Hl as <-; discriminate.
Qed.

(** an optimiser that tries one point, and reports success if it meets the constraints *)
Definition fin64b (x : f64) : bool :=
  match x with
  | S754_zero _ => true
  | S754_finite _ m e => (Zpos m <? 2 ^ 53)%Z && (-1074 <=? e)%Z && (e <=? 971)%Z && ((e =? -1074)%Z || (2 ^ 52 <=? Zpos m)%Z)
  | _ => false
  end.
Lemma fin64b_finite x : fin64b x = true -> finite64 x.
Proof. destruct x; cbn; try discriminate; trivial. intros H. rewrite !andb_true_iff, orb_true_iff, Z.ltb_lt, !Z.leb_le, Z.eqb_eq in H. tauto. Qed.
Definition try_min (x : list f64) (f : f64 -> list f64 -> f64) (x0 : list f64) (w : f64) (j : f64 -> list f64 -> list f64) (con : list f64 -> res (list f64)) : res (bool * list f64) :=
  match con x with
  | Ok g => Ok (Nat.eqb (length x) (length x0) && forallb (fun y => fin64b y && SFleb (lit 0 0 : f64) y) g, x)
  | Err e => Err e
  end.
Lemma try_feasible x : feasible64 0 (try_min x).
Proof.
  intros f x0 w j con y E. unfold try_min in E. destruct (con x) as [g|] eqn:Ec; [|discriminate]. injection E as E1 <-.
  apply andb_true_iff in E1. destruct E1 as [L H]. split; [apply Nat.eqb_eq; exact L|]. exists g. split; [exact Ec|].
  intros z Hz. rewrite forallb_forall in H. specialize (H z Hz). apply andb_true_iff in H. destruct H as [H1 H2]. pose proof (fin64b_finite z H1) as Fz.
  split; [exact Fz|]. destruct h0 as [F0 V0]. assert (H3 := leb_val _ z F0 Fz). rewrite V0 in H3. assert (H4 := eq_trans (eq_sym H3) H2). clear H2. rename H4 into H2. destruct (Raux.Rle_bool_spec 0 (fval z)); [lra|discriminate].
Qed.
Definition cooler : list f64 := fl [0; 0; 0; 0; 0; -7]%Z.
Definition thr : f64 := lit 1 (-6).
Lemma thr_val : finite64 thr /\ Rabs (fval thr) <= 1 /\ 9 / 10000000 <= fval thr.
Proof.
  assert (H : finite64 thr /\ fval thr = 4722366482869645 / 4722366482869645213696) by (unfold thr; const64 4722366482869645%positive (-72)%Z).
  destruct H as [F V]. split; [exact F|]. rewrite V. split; [rewrite Rabs_pos_eq by lra; lra|lra].
Qed.
Lemma thr_thresholds : thresholds64 (Scalar thr) 3 (fun _ => fval thr).
Proof. destruct thr_val as (F & B & _). split; [intros _; lra|]. split; [exact F|reflexivity]. Qed.
Definition zeros64 (n : nat) : list f64 := repeat (lit 0 0) n.

(** runs *)
Definition run_count := (count_unstable eS eT eP None (Some jm64) None (VInt (-1)), count_unstable uS uT uP None (Some jm64) None (VInt 0)).
Example run_counts : run_count = (Ok 0%nat, Ok 1%nat).
Proof. vm_compute. reflexivity. Qed.
Definition colV : column64 := (fl [34; 35; 35], fl [20; 4; 3], fl [10; 500; 2000])%Z.
Example run_stabilize : stabilize_ST (try_min cooler) uS uT uP jm64 (Scalar thr) (lit 10 0) (VInt 0) zeros64
  = Ok (mk_nd [3%nat] (fst (fst colV)), mk_nd [3%nat] (snd (fst colV)), None)
  /\ stabilize_ST (try_min (zeros64 6)) uS uT uP jm64 (Scalar thr) (lit 10 0) (VInt 0) zeros64
  = Ok (mk_nd [3%nat] (fst (fst colU)), mk_nd [3%nat] (snd (fst colU)), Some RuntimeError).
Proof. split; vm_compute; reflexivity. Qed.

(** the hypotheses can be met *)
Definition colV' : column := (fins [34; 35; 35], fins [20; 4; 3], fins [10; 500; 2000])%Z.
Definition vS : @data f64 := mk_data (mk_nd [3]%nat (fst (fst colV))) None [].
Definition vT : @data f64 := mk_data (mk_nd [3]%nat (snd (fst colV))) None [].
Lemma h3 : S_vert64.holds (lit 3 0 : f64) (Fin 3). Proof. exact fl_three. Qed.
Lemma colV_holds : holds_column colV colV'. Proof. split; [|split]; repeat (apply Forall2_cons; [first [exact h3|held]|]); apply Forall2_nil. Qed.
Lemma V_known : known_levels (sea (/ 1000) 10000) colV'. Proof. known. Qed.
Lemma v_columns : water_columns vS vT uP (VInt 0) [] 3 [] (fun _ => colV).
Proof.
  assert (HL : forall X : @data f64, dims X = None -> labelled (VInt 0) 0 X) by (intros X E ds Ed; rewrite E in Ed; discriminate).
  constructor.
  - split; reflexivity.
  - split; reflexivity.
  - lia.
  - split; [split; [apply HL; reflexivity|]|apply HL; reflexivity]. intros _. exists 0%Z. split; [reflexivity|]. split; [cbn; lia|left; reflexivity].
  - split; [reflexivity|]. right. split; reflexivity.
  - intros h1 h2 V1 V2. inversion V1; subst. inversion V2; subst. split; (split; [reflexivity|]); intros k Hk; destruct k as [|[|[|k]]]; try lia; reflexivity.
Qed.
Lemma V_water k K : (K <= 3)%nat -> exists ss ts, holds_water (fst (fst colV)) (snd (fst colV)) k K ss ts /\ waters (sea (/ 1000) 10000) k K ss ts.
Proof.
  intros HK. exists (lev [34; 35; 35]%Z), (lev [20; 4; 3]%Z). split.
  - intros i Hi. destruct colV_holds as (HS & HT & _).
    assert (E : nth_error (fst (fst colV')) i = Some (Fin (lev [34; 35; 35]%Z i)) /\ nth_error (snd (fst colV')) i = Some (Fin (lev [20; 4; 3]%Z i)))
      by (destruct i as [|[|[|i]]]; try lia; split; reflexivity).
    destruct (holds_get _ _ _ _ HS (proj1 E)) as (s & Es & Hs). destruct (holds_get _ _ _ _ HT (proj2 E)) as (t & Et & Ht).
    exists s, t. split; [exact Es|]. split; [exact Et|]. split; [exact Hs|exact Ht].
  - intros i Hi. cbn [sea box dS dT]. unfold upto. destruct i as [|[|[|i]]]; try lia; unfold lev; cbn [nth]; lra.
Qed.
Lemma stability64_case :
  named_eos "jmd95" jm_rho /\ pair64 "jmd95" (/ 1000) (dec 6 (-12)) /\ grad64 "jmd95" (/ 1000) (dec 8 (-12)) /\ coordinate64 None None 1 10000
  /\ make_eos sdiv (AStr "jmd95") None None = Ok (F1 jm64)
  /\ water_columns eS eT eP (VInt (-1)) [2%nat] 4 [] ecol
  /\ (forall h, valid ([2%nat] ++ []) h -> holds_column (ecol h) (ecol' h) /\ known_levels (sea (/ 1000) 10000) (ecol' h))
  /\ water_columns uS uT uP (VInt 0) [] 3 [] (fun _ => colU)
  /\ (forall h : list nat, holds_column colU colU' /\ known_levels (sea (/ 1000) 10000) colU' /\ sea_column (sea (/ 1000) 10000) colU' /\ no_gap (fst (fst colU')))
  /\ feasible64 0 (try_min cooler) /\ thresholds64 (Scalar thr) 3 (fun _ => fval thr) /\ (forall n, length (zeros64 n) = n)
  /\ (forall i, (i + 1 < 3)%nat -> (1 + powerRZ 2 (-50)) * 0 + 1000 * (dec 8 (-12) + dec 6 (-12)) < fval thr)
  /\ water_columns vS vT uP (VInt 0) [] 3 [] (fun _ => colV)
  /\ (forall h, valid ([] ++ []) h -> cast_at (at_ (mk_nd [3%nat] (fst (fst colV)))) 3 h [] (fst (fst colV))
       /\ cast_at (at_ (mk_nd [3%nat] (snd (fst colV)))) 3 h [] (snd (fst colV)) /\ snd colV = snd colU
       /\ holds_column colV colV' /\ known_levels (sea (/ 1000) 10000) colV'
       /\ forall k K ss ts ps, profile (fst (fst colU')) (snd (fst colU')) (snd colU') k K ss ts ps ->
            exists ss' ts', holds_water (fst (fst colV)) (snd (fst colV)) k K ss' ts' /\ waters (sea (/ 1000) 10000) k K ss' ts').
Proof.
  split; [constructor|]. split; [constructor|]. split; [constructor|]. split; [apply e_coordinate|]. split; [reflexivity|]. split; [exact e_columns|]. split.
  { intros h V. destruct (valid1 h V) as [-> | ->]; cbn [ecol ecol']; [split; [exact colA_holds|exact A_known]|split; [exact colB_holds|exact B_known]]. }
  split; [exact u_columns|]. split.
  { intros _. split; [exact colU_holds|]. split; [exact U_known|]. split; [|exact U_no_gap].
    right. do 5 eexists. split; [exact U_profile|exact U_waters]. }
  split; [apply try_feasible|]. split; [exact thr_thresholds|]. split; [intros n; apply repeat_length|]. split.
  { intros i _. destruct thr_val as (_ & _ & L). rewrite Rmult_0_r. unfold dec. simpl powerRZ. lra. }
  split; [exact v_columns|]. intros h V. inversion V; subst.
  split; [split; [reflexivity|]; intros k Hk; destruct k as [|[|[|k]]]; try lia; reflexivity|].
  split; [split; [reflexivity|]; intros k Hk; destruct k as [|[|[|k]]]; try lia; reflexivity|].
  split; [reflexivity|]. split; [exact colV_holds|]. split; [exact V_known|].
  intros k K ss ts ps Hp. apply V_water. pose proof (pr_kK _ _ _ _ _ _ _ _ Hp) as H. cbn in H. lia.
Qed.
Example run_after : count_unstable vS vT uP None (Some jm64) None (VInt 0) = Ok 0%nat.
Proof. vm_compute. reflexivity. Qed.
