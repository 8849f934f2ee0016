(** * Witnesses for on-the-fly interpolation in binary64 *)
From Coq Require Import String ZArith Bool Reals Lra Lia List SpecFloat.
From Verif Require Import Num XR SF Res Arr XRlemmas M_ppinterp M_make_pp M_surfaces S_eos S_float S_interp S_domain S_traj S_vertsolve S_vert64 S_omega S_omega64
  P_float P_fl P_ppinterp P_traj P_linear64 Ex_vert64.
Import ListNotations.
Local Open Scope R_scope.

(** a column whose first level has no data *)
Definition colE : column64 := (nan :: fl [34; 35; 35], nan :: fl [25; 10; 5], fl [5; 10; 600; 2000])%Z.
Definition colE' : column := (NaN :: fins [34; 35; 35], NaN :: fins [25; 10; 5], fins [5; 10; 600; 2000])%Z.
Lemma colE_holds : holds_column colE colE'. Proof. split; [|split]; held_all. Qed.
Lemma colE_cast : cast (fst (fst colE')) (snd (fst colE')) (snd colE') 1 4
  (lev [0; 34; 35; 35]%Z) (lev [0; 25; 10; 5]%Z) (lev [0; 10; 600; 2000]%Z).
Proof.
  constructor; [constructor|reflexivity|]; simpl; try lia.
  - intros i Hi. destruct i as [|[|[|[|i]]]]; try lia; reflexivity.
  - intros i Hi. destruct i as [|[|[|[|i]]]]; try lia; reflexivity.
  - intros i ? Hi. destruct i as [|[|[|i]]]; try lia; unfold lev; simpl; lra.
  - intros i Hi. assert (i = 0)%nat as -> by lia. right. reflexivity.
  - intros i Hi. destruct i as [|[|[|[|i]]]]; try lia; reflexivity.
Qed.
Lemma colE_ok : any_cast colE' /\ same_extent colE' /\ cast_in (sea (/ 1000) 10000) colE' /\ column_spaced colE'.
Proof.
  pose proof p30 as P30. split; [|split; [|split]].
  - right. exists 1%nat, 4%nat, (lev [0; 34; 35; 35]%Z), (lev [0; 25; 10; 5]%Z), (lev [0; 10; 600; 2000]%Z). split; [exact colE_cast|lia].
  - unfold same_extent, colE'. intros k K ss ts ps HC. assert (HB := cast_blk _ _ _ _ _ _ _ _ HC).
    pose proof (block_valid_range _ _ _ _ _ _ HB) as E. pose proof (block_valid_range _ _ _ _ _ _ (cast_blk _ _ _ _ _ _ _ _ colE_cast)) as E0. unfold colE' in E0. cbn [fst snd] in E0. rewrite E0 in E.
    assert (k = 1 /\ K = 4)%nat as [-> ->] by (split; congruence). constructor.
    + reflexivity.
    + lia.
    + simpl. lia.
    + exact (blk_X _ _ _ _ _ _ HB).
    + exact (cast_T _ _ _ _ _ _ _ _ HC).
    + exact (blk_inc _ _ _ _ _ _ HB).
    + intros i Hi. assert (i = 0)%nat as -> by lia. right. reflexivity.
    + simpl. lia.
  - apply (cast_in_block _ _ _ _ _ _ _ _ _ colE_cast). intros i Hi. destruct i as [|[|[|[|i]]]]; try lia; unfold sea, box, lev; cbn [dS dT dP nth]; repeat split; lra.
  - refine (one_cast _ _ _ _ _ _ _ _ (fun k K ps => forall i, (k <= i)%nat -> (S i < K)%nat -> powerRZ 2 (-30) <= ps (S i) - ps i) colE_cast _).
    intros ps H i Hk Hi. rewrite !H by lia. destruct i as [|[|[|i]]]; try lia; unfold lev; cbn [nth]; lra.
Qed.
Lemma colE_inside : inside64 (lit 1000 0 : f64) (lev [0; 10; 600; 2000]%Z 1) (lev [0; 10; 600; 2000]%Z 3).
Proof. destruct h1000 as [F V]. split; [exact F|]. rewrite V. unfold lev. cbn [nth]. lra. Qed.

Definition fly_value : f64 * f64 := Eval vm_compute in
  match interp_two_named "pchip_interp_two" (lit 1000 0 : f64) (snd colE) (fst (fst colE)) (snd (fst colE)) with Ok x => x | Err _ => (nan, nan) end.
Lemma fly_run : interp_two_named "pchip_interp_two" (lit 1000 0 : f64) (snd colE) (fst (fst colE)) (snd (fst colE)) = Ok fly_value
  /\ isfinite (fst fly_value) = true /\ isfinite (snd fly_value) = true.
Proof. split; [vm_compute; reflexivity|split; reflexivity]. Qed.
Lemma fly_outside : interp_two_named "pchip_interp_two" (lit 5 0 : f64) (snd colE) (fst (fst colE)) (snd (fst colE)) = Ok (nan, nan).
Proof. vm_compute. reflexivity. Qed.
Lemma fly_block : holds_all (snd colE) (snd colE') /\ holds_all (fst (fst colE)) (fst (fst colE'))
  /\ block (snd colE') (fst (fst colE')) 1 4 (lev [0; 10; 600; 2000]%Z) (lev [0; 34; 35; 35]%Z)
  /\ steps 1 4 (lev [0; 10; 600; 2000]%Z) (powerRZ 2 (-60)) (powerRZ 2 60)
  /\ forall i, (1 <= i < 4)%nat -> Rabs (lev [0; 34; 35; 35]%Z i) <= 42.
Proof.
  split; [apply colE_holds|]. split; [apply colE_holds|]. split; [exact (cast_blk _ _ _ _ _ _ _ _ colE_cast)|]. split.
  - intros i H1 H2. assert (A : powerRZ 2 (-60) <= 1) by (change 1 with (powerRZ 2 0); apply pow2_le; lia).
    assert (B : 10000 <= powerRZ 2 60) by (apply Rle_trans with (powerRZ 2 14); [simpl; lra|apply pow2_le; lia]).
    destruct i as [|[|[|i]]]; try lia; unfold lev; cbn [nth]; lra.
  - intros i Hi. destruct i as [|[|[|[|i]]]]; try lia; unfold lev; cbn [nth]; apply Rabs_le; lra.
Qed.
