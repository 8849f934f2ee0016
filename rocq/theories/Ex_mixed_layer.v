(** * Mixed layer: concrete cases *)
From Coq Require Import String ZArith Bool Reals Lra Lia List.
From Verif Require Import Num XR SF Res Arr ArrLemmas Nd NdLemmas XRlemmas M_numpy M_lib M_ppinterp S_eos S_interp S_traj S_lib P_ppinterp P_pval P_interp
  M_make_pp M_eos_base M_eostools M_mixed_layer S_mixed_layer P_mixed_layer P_mixed_layer2 P_mlnamed.
Import ListNotations.
Local Open Scope R_scope.

(** density equal to salinity, or its square *)
Definition f1 (s t p : xr) : res xr := Ok s.
Definition fsq (s t p : xr) : res xr := Ok (mul s s).

Lemma f1_density S T ref k K sig : (forall i s t, (k <= i < K)%nat -> nth_error S i = Some s -> nth_error T i = Some t -> s = Fin (sig i)) ->
  pot_density f1 ref S T k K sig.
Proof.
  intros H. constructor.
  - exists (69 / 2). split; [reflexivity|]. intros i s t Hi Es Et. rewrite (H i s t Hi Es Et). exists (sig i). split; [reflexivity|]. left. split; lra.
  - intros i s t _ _. exists s. split; [reflexivity|auto].
Qed.

Definition lv (l : list R) (i : nat) : R := nth i l 0.

(** a list of levels without missing data *)
Lemma full_cast l q : length l = length q -> l <> [] -> (forall i, (S i < length q)%nat -> lv q i < lv q (S i)) ->
  cast (map Fin l) (map Fin l) (map Fin q) 0 (length l) (lv l) (lv l) (lv q).
Proof.
  intros L Hne Hinc.
  assert (Hn : forall m i, (i < length m)%nat -> nth_error (map Fin m) i = Some (Fin (lv m i))).
  { intros m i Hi. rewrite nth_error_map, (nth_error_nth' m 0 Hi). reflexivity. }
  constructor; [constructor| |]; rewrite ?map_length; try lia.
  - destruct l; [congruence|cbn; lia].
  - intros i Hi. apply Hn. lia.
  - intros i Hi. apply Hn. lia.
  - intros i _ Hi. apply Hinc. lia.
  - intros i Hi. apply Hn. lia.
Qed.
Lemma full_density l ref : pot_density f1 ref (map Fin l) (map Fin l) 0 (length l) (lv l).
Proof.
  apply f1_density. intros i s t Hi Es _. rewrite nth_error_map, (nth_error_nth' l 0) in Es by lia. injection Es as <-. reflexivity.
Qed.

Ltac levels := let i := fresh "i" in intro i; intros; do 6 (destruct i as [|i]; [first [unfold lv; simpl; lra|simpl in *; lia]|]); simpl in *; lia.

(** three levels above the sea floor *)
Definition s3 : list R := [30; 31; 33].
Definition p3 : list R := [0; 10; 20].
Definition S3 : list xr := [Fin 30; Fin 31; Fin 33; NaN].
Definition P3 : list xr := [Fin 0; Fin 10; Fin 20; Fin 30].
Lemma cast3 : cast S3 S3 P3 0 3 (lv s3) (lv s3) (lv p3).
Proof.
  assert (Hn : forall i, (0 <= i < 3)%nat -> nth_error S3 i = Some (Fin (lv s3 i))) by (intros i Hi; do 3 (destruct i as [|i]; [reflexivity|]); lia).
  constructor; [constructor| |]; try exact Hn; try (cbn; lia).
  - intros i Hi; do 3 (destruct i as [|i]; [reflexivity|]); lia.
  - intros i _ Hi. do 2 (destruct i as [|i]; [unfold lv; simpl; lra|]); lia.
  - intros _. right. reflexivity.
Qed.
Lemma density3 ref : pot_density f1 ref S3 S3 0 3 (lv s3).
Proof.
  apply f1_density. intros i s t Hi Es _. do 3 (destruct i as [|i]; [injection Es as <-; reflexivity|]). lia.
Qed.
Lemma index3 : py_index (length S3) 0 0 /\ py_index (length S3) (-4) 0.
Proof. split; (split; [cbn; lia|]); [left; reflexivity|right; split; [lia|reflexivity]]. Qed.
Lemma sorted3 : forall i, (0 <= i)%nat -> (S i < 3)%nat -> lv s3 i < lv s3 (S i).
Proof. intros i _ Hi. do 2 (destruct i as [|i]; [unfold lv; simpl; lra|]). lia. Qed.

(** *** A profile that is not monotone *)

(** the threshold is crossed between the first two levels, the last level is below it: NaN *)
Lemma crossing_missed : exists l q x, let S := map Fin l in let P := map Fin q in
  cast S S P 0 (length l) (lv l) (lv l) (lv q) /\ pot_density f1 (Fin 0) S S 0 (length l) (lv l)
  /\ lv l 0 - lv l 0 < x < lv l 1 - lv l 0
  /\ mixed_layer_1 f1 linear_interp_1 (Fin x) (Fin 0) 0 S S P = Ok NaN.
Proof.
  exists [30; 32; 31], [0; 10; 20], (3 / 2). cbv zeta.
  assert (HC : cast (map Fin [30; 32; 31]) (map Fin [30; 32; 31]) (map Fin [0; 10; 20]) 0 3 (lv [30; 32; 31]) (lv [30; 32; 31]) (lv [0; 10; 20])).
  { apply (full_cast [30; 32; 31] [0; 10; 20]); [reflexivity|discriminate|levels]. }
  split; [exact HC|]. split; [apply (full_density [30; 32; 31])|]. split; [unfold lv; simpl; lra|].
  apply (ml_linear_outside _ _ _ _ _ _ _ _ _ _ _ HC (full_density [30; 32; 31] (Fin 0)) 0%Z 0%nat); [split; [cbn; lia|left; reflexivity]|lia|].
  right. right. unfold excess, lv. simpl. lra.
Qed.

(** the pressure returned is below a level denser than the threshold: not the first crossing *)
Lemma deeper_crossing : exists l q x p, let S := map Fin l in let P := map Fin q in
  cast S S P 0 (length l) (lv l) (lv l) (lv q) /\ pot_density f1 (Fin 0) S S 0 (length l) (lv l)
  /\ mixed_layer_1 f1 linear_interp_1 (Fin x) (Fin 0) 0 S S P = Ok (Fin p)
  /\ exists i, (i < length l)%nat /\ x < lv l i - lv l 0 /\ lv q i < p.
Proof.
  set (l := [30; 32; 61 / 2; 33]). set (q := [0; 10; 20; 30]).
  assert (HC : cast (map Fin l) (map Fin l) (map Fin q) 0 4 (lv l) (lv l) (lv q)).
  { apply (full_cast l q); [reflexivity|discriminate|unfold q; levels]. }
  exists l, q, 1.
  assert (E : mixed_layer_1 f1 linear_interp_1 (Fin 1) (Fin 0) 0 (map Fin l) (map Fin l) (map Fin q)
     = linear_interp_1 (Fin 1) [Fin 0; Fin 2; Fin (1 / 2); Fin 3] (map Fin q) 0%nat).
  { unfold mixed_layer_1, f1, eos_column, l, q, py_slice, py_bound, slice. simpl. unfold xr_sub. cbn [xr_add xr_opp]. 
    replace (Rltb (Rlit 1 0) (Rlit 345 (-1))) with true by (symmetry; apply Rltb_true; unfold Rlit; simpl; lra).
    cbn [bind np_bin length Nat.eqb map linear_interp_1]. repeat (f_equal; try lra). }
  assert (V : valid_range_1_two [Fin 0; Fin 2; Fin (1 / 2); Fin 3] (map Fin q) = Ok (0%nat, 4%nat)) by reflexivity.
  exists (20 + (1 - 1 / 2) * (10 / (3 - 1 / 2))). cbv zeta. split; [exact HC|]. split; [apply (full_density l)|]. split.
  - rewrite E. unfold linear_interp_1, ppinterp_1, locate. rewrite V. cbn [bind Nat.leb Nat.sub orb isnan xr_isnan xrNum get nth_error ltb xr_ltb q map].
    rewrite !Rltb_false by lra. unfold searchsorted, slice. cbn [skipn firstn Nat.sub length].
    cbn [bsearch Nat.ltb Nat.leb Nat.sub Nat.add Nat.div Nat.divmod fst nth ltb xr_ltb xrNum].
    rewrite (Rltb_true (1 / 2) 1) by lra. cbn [bsearch Nat.ltb Nat.leb Nat.sub Nat.add Nat.div Nat.divmod fst nth ltb xr_ltb xrNum].
    rewrite (Rltb_false 3 1) by lra. cbn [bsearch Nat.ltb Nat.leb Nat.sub Nat.add Nat.max bind].
    unfold linear_coeffs_i. cbn [Nat.add get nth_error bind sub xrNum]. unfold xr_sub. cbn [xr_opp xr_add]. rewrite sdiv_fin by lra. cbn [bind].
    match goal with |- context [[Fin ?a; Fin ?b]] => change [Fin a; Fin b] with (map Fin [a; b]) end.
    rewrite pval_fin. unfold pval. simpl. unfold Rlit. simpl. do 2 f_equal. field.
  - exists 1%nat. split; [cbn; lia|]. unfold lv, l, q. simpl. split; lra.
Qed.

(** two equal levels at the threshold *)
Lemma flat_fails : exists l q x, let S := map Fin l in let P := map Fin q in
  cast S S P 0 (length l) (lv l) (lv l) (lv q) /\ pot_density f1 (Fin 0) S S 0 (length l) (lv l)
  /\ (forall i, (Datatypes.S i < length l)%nat -> lv l i <= lv l (Datatypes.S i))
  /\ mixed_layer_1 f1 linear_interp_1 (Fin x) (Fin 0) 0 S S P = Err ZeroDivisionError.
Proof.
  set (l := [30; 30; 31]). set (q := [0; 10; 20]).
  exists l, q, 0. cbv zeta. split; [apply (full_cast l q); [reflexivity|discriminate|unfold q; levels]|]. split; [apply (full_density l)|].
  split; [unfold l; levels|].
  assert (E : mixed_layer_1 f1 linear_interp_1 (Fin 0) (Fin 0) 0 (map Fin l) (map Fin l) (map Fin q)
     = linear_interp_1 (Fin 0) [Fin 0; Fin 0; Fin 1] (map Fin q) 0%nat).
  { unfold mixed_layer_1, f1, eos_column, l, q, py_slice, py_bound, slice. simpl. unfold xr_sub. cbn [xr_add xr_opp]. 
    replace (Rltb (Rlit 1 0) (Rlit 345 (-1))) with true by (symmetry; apply Rltb_true; unfold Rlit; simpl; lra).
    cbn [bind np_bin length Nat.eqb map linear_interp_1]. repeat (f_equal; try lra). }
  assert (V : valid_range_1_two [Fin 0; Fin 0; Fin 1] (map Fin q) = Ok (0%nat, 3%nat)) by reflexivity.
  rewrite E. unfold linear_interp_1, ppinterp_1, locate. rewrite V. cbn [bind Nat.leb Nat.sub orb isnan xr_isnan xrNum get nth_error ltb xr_ltb q map].
  rewrite !Rltb_false by lra. unfold searchsorted, slice. cbn [skipn firstn Nat.sub length].
  cbn [bsearch Nat.ltb Nat.leb Nat.sub Nat.add Nat.div Nat.divmod fst nth ltb xr_ltb xrNum].
  rewrite (Rltb_false 0 0) by lra. cbn [bsearch Nat.ltb Nat.leb Nat.sub Nat.add Nat.div Nat.divmod fst nth ltb xr_ltb xrNum].
  try rewrite (Rltb_false 0 0) by lra. cbn [bsearch Nat.ltb Nat.leb Nat.sub Nat.add Nat.max bind].
  unfold linear_coeffs_i. cbn [Nat.add get nth_error bind sub xrNum]. unfold xr_sub. cbn [xr_opp xr_add].
  unfold sdiv, zero. cbn [eqb xrNum xr_eqb lit]. rewrite Rlit_0, Reqb_true by lra. reflexivity.
Qed.

(** the water interpolated at the pressure returned does not have the threshold's potential density *)
Lemma not_that_water : exists l q x p s r r0, let S := map Fin l in let P := map Fin q in
  cast S S P 0 (length l) (lv l) (lv l) (lv q)
  /\ pot_density fsq (Fin 0) S S 0 (length l) (fun i => lv l i * lv l i)
  /\ (forall i, (Datatypes.S i < length l)%nat -> lv l i < lv l (Datatypes.S i))
  /\ mixed_layer_1 fsq linear_interp_1 (Fin x) (Fin 0) 0 S S P = Ok (Fin p)
  /\ linear_interp_1 (Fin p) P S 0 = Ok (Fin s)
  /\ fsq (Fin s) (Fin s) (Fin 0) = Ok (Fin r)
  /\ fsq (Fin (lv l 0)) (Fin (lv l 0)) (Fin 0) = Ok (Fin r0)
  /\ r - r0 <> x.
Proof.
  set (l := [2; 4]). set (q := [0; 10]).
  assert (HC : cast (map Fin l) (map Fin l) (map Fin q) 0 2 (lv l) (lv l) (lv q)).
  { apply (full_cast l q); [reflexivity|discriminate|unfold q; levels]. }
  assert (HD : pot_density fsq (Fin 0) (map Fin l) (map Fin l) 0 2 (fun i => lv l i * lv l i)).
  { constructor.
    - exists (69 / 2 * (69 / 2)). split; [reflexivity|]. intros i s t Hi Es Et. exists (lv l i * lv l i).
      rewrite nth_error_map, (nth_error_nth' l 0) in Es by (cbn; lia). injection Es as <-. split; [reflexivity|]. left. split; [lra|reflexivity].
    - intros i s t Es Et. exists (mul s s). split; [reflexivity|]. intros ->. reflexivity. }
  destruct (ml_linear _ _ _ _ _ _ _ _ _ _ _ HC HD 0%Z 0%nat ltac:(split; [cbn; lia|left; reflexivity]) ltac:(lia) 6) as (i & p & Hi & Hi' & _ & E & Hb & _).
  { unfold excess, lv, l. simpl. lra. }
  assert (i = 0)%nat by lia. subst i. unfold between, excess, lv, l, q in Hb. simpl in Hb.
  assert (p = 5) by lra. subst p.
  assert (BS : block (map Fin q) (map Fin l) 0 2 (lv q) (lv l)) by exact (cast_blk _ _ _ _ _ _ _ _ HC).
  destruct (P_interp2.linear_final _ _ _ _ _ _ BS ltac:(lia)) as (g & G1 & _ & _ & G4).
  destruct (G4 5 0%nat) as (Eg & _); [unfold in_piece, lv, q; simpl; repeat split; try lia; try lra; left; reflexivity|].
  exists l, q, 6, 5, 3, 9, 4. cbv zeta. split; [exact HC|]. split; [exact HD|]. split; [unfold l; levels|]. split; [exact E|]. split.
  - rewrite G1 by (unfold lv, q; simpl; lra). rewrite Eg. do 2 f_equal. unfold lv, l, q. simpl. field.
  - split; [unfold fsq; cbn; do 2 f_equal; lra|]. split; [unfold fsq; cbn; do 2 f_equal; lra|]. lra.
Qed.

(** *** Sea water at three levels, with missing data below *)
Definition Sw : list xr := [Fin 34; Fin 35; NaN].
Definition Tw : list xr := [Fin 20; Fin 10; NaN].
Definition Pw : list xr := [Fin 0; Fin 100; Fin 200].
Lemma sea : cast Sw Tw Pw 0 2 (lv [34; 35]) (lv [20; 10]) (lv [0; 100]) /\ sea_water Sw Tw 0
  /\ density "jmd95" jm_rho /\ pressure_factor None (Some (Fin 1000)) 1 /\ ocean (69 / 2) 3 (1000 * 1).
Proof.
  split; [|split; [|split; [|split]]].
  - assert (Hn : forall i, (0 <= i < 2)%nat -> nth_error Sw i = Some (Fin (lv [34; 35] i)) /\ nth_error Tw i = Some (Fin (lv [20; 10] i)) /\ nth_error Pw i = Some (Fin (lv [0; 100] i))).
    { intros i Hi. do 2 (destruct i as [|i]; [repeat split; reflexivity|]). lia. }
    constructor; [constructor| |]; try (cbn; lia); try (intros; apply Hn; assumption).
    + intros i _ Hi. destruct i as [|i]; [unfold lv; simpl; lra|lia].
    + intros _. right. reflexivity.
  - intros i s t Es Et. do 2 (destruct i as [|i]; [injection Es as <-; injection Et as <-; right; do 2 eexists; split; [reflexivity|]; split; [reflexivity|]; unfold ocean; lra|]).
    destruct i as [|i]; [|destruct i; discriminate]. injection Es as <-. injection Et as <-. left. split; [reflexivity|left; reflexivity].
  - constructor.
  - left. split; [left; reflexivity|reflexivity].
  - unfold ocean. lra.
Qed.

Lemma missing3 : py_index (length S3) 3 3 /\ nth_error S3 3 = Some NaN /\ f1 NaN NaN (Fin 0) = Ok NaN
  /\ forall i s t, nth_error S3 i = Some s -> nth_error S3 i = Some t -> exists v, f1 s t (Fin 0) = Ok v.
Proof.
  split; [split; [cbn; lia|left; reflexivity]|]. split; [reflexivity|]. split; [reflexivity|]. intros i s t _ _. exists s. reflexivity.
Qed.

(** two casts of three levels, in binary64; one with a hole *)
Definition eosf (s t p : f64) : res f64 := Ok s.
Definition S6 : @data f64 := mk_data (mk_nd [2; 3]%nat [lit 30 0; lit 31 0; lit 33 0; lit 30 0; lit 32 0; nan]) None [].
Definition P6 : @data f64 := mk_data (mk_nd [3]%nat [lit 0 0; lit 10 0; lit 20 0]) None [].
Lemma columns6 : exists out, mixed_layer S6 S6 P6 (AFun (F1 eosf)) None None (lit 1 0) (lit 0 0) 0 "linear" (VInt (-1)) = Ok out
  /\ shape out = [2]%nat /\ elems out = [lit 10 0; lit 5 0].
Proof. eexists. split; [vm_compute; reflexivity|]. split; reflexivity. Qed.
Lemma pair_case : mixed_layer S6 S6 P6 (AFun (F2 (fun s t p => Ok (s, t)))) None None (lit 1 0) (lit 0 0) 0 "linear" (VInt (-1)) = Err TypeError.
Proof.
  apply mixed_layer_pair with (s1 := [2%nat]) (n := 3%nat) (s2 := []) (g := fun s t p => Ok (s, t)); try reflexivity; [right; reflexivity|left; reflexivity|cbn; lia].
Qed.
