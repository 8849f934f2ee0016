(** * The synthetic ocean: proofs *)
From Coq Require Import ZArith Bool Reals Lra Lia List.
From Verif Require Import Num XR Res Arr ArrLemmas Nd NdLemmas XRlemmas M_eos_base P_stability M_synthocean S_synthocean.
Import ListNotations.
Local Open Scope R_scope.

Definition lin (a b : R) (n i : nat) : R := a + fraction i n * (b - a).

Lemma seq_map_ext {A} (f g : nat -> A) n : (forall i, (i < n)%nat -> f i = g i) -> map f (seq 0 n) = map g (seq 0 n).
Proof. intros H. apply map_ext_in. intros i Hi. apply in_seq in Hi. apply H. lia. Qed.

Lemma linspace_real a b n : np_linspace (Fin a) (Fin b) (Z.of_nat n) = Ok (map (fun i => Fin (lin a b n i)) (seq 0 n)).
Proof.
  unfold np_linspace. replace (Z.of_nat n <? 0)%Z with false by (symmetry; apply Z.ltb_ge; lia).
  rewrite Nat2Z.id. destruct (Z.ltb_spec 1 (Z.of_nat n)) as [H|H]; f_equal; apply seq_map_ext; intros i Hi.
  - assert (P : 0 < INR (n - 1)) by (apply lt_0_INR; lia).
    assert (Q : IZR (Z.of_nat n - 1) = INR (n - 1)) by (rewrite INR_IZR_INZ; f_equal; lia).
    destruct (Nat.eqb_spec (S i) n) as [E|E].
    + unfold lin, fraction. replace i with (n - 1)%nat by lia. f_equal. field. lra.
    + unfold of_Z, of_nat, zero. cbn [eqb mul div add sub lit xrNum]. rewrite !Rlit_0, Q, <- INR_IZR_INZ.
      cbn [xr_sub]. rewrite !xr_div_fin by lra. unfold xr_eqb. destruct (Reqb_spec ((b - a) / INR (n - 1)) 0) as [Z|Z].
      * cbn [xr_mul xr_add]. f_equal. unfold lin, fraction. lra.
      * cbn [xr_mul xr_add]. f_equal. unfold lin, fraction. field. lra.
  - assert (i = O) as -> by lia. unfold of_nat. cbn [mul add sub lit xrNum]. rewrite Rlit_0. cbn [xr_sub xr_mul xr_add]. f_equal.
    unfold lin, fraction. simpl. unfold Rdiv. ring.
Qed.

(** x has the shape (a, b, c) and the elements f *)
Definition is3 (x : nd xr) (a b c : nat) (f : nat -> nat -> nat -> xr) : Prop :=
  wf x /\ shape x = [a; b; c] /\ forall i j k, (i < a)%nat -> (j < b)%nat -> (k < c)%nat -> at_ x [i; j; k] = Some (f i j k).

Lemma valid3 a b c i j k : (i < a)%nat -> (j < b)%nat -> (k < c)%nat -> valid [a; b; c] [i; j; k].
Proof. intros. repeat constructor; assumption. Qed.

Lemma valid3_inv a b c ix : valid [a; b; c] ix -> exists i j k, ix = [i; j; k] /\ (i < a)%nat /\ (j < b)%nat /\ (k < c)%nat.
Proof.
  intros V. inversion V as [|? i ? r Hi Hr]; subst. inversion Hr as [|? j ? r' Hj Hr']; subst. inversion Hr' as [|? k ? r'' Hk Hr'']; subst. inversion Hr''; subst.
  exists i, j, k. auto.
Qed.

Lemma nth_error_map_seq {A} (f : nat -> A) n i : (i < n)%nat -> nth_error (map f (seq 0 n)) i = Some (f i).
Proof. intros H. rewrite nth_error_map, (nth_error_nth' _ O) by (rewrite seq_length; exact H). rewrite seq_nth by exact H. reflexivity. Qed.

Lemma along0_is3 f n : is3 (along0 (map (fun i => Fin (f i)) (seq 0 n))) n 1 1 (fun i _ _ => Fin (f i)).
Proof.
  unfold along0. rewrite map_length, seq_length. split; [unfold wf; simpl; rewrite map_length, seq_length; lia|]. split; [reflexivity|].
  intros i j k Hi Hj Hk. unfold at_. cbn [elems shape ravel prod]. replace (i * (1 * (1 * 1)) + (j * (1 * 1) + (k * 1 + 0)))%nat with i by lia.
  apply (nth_error_map_seq (fun i => Fin (f i))). exact Hi.
Qed.
Lemma along1_is3 f n : is3 (along1 (map (fun i => Fin (f i)) (seq 0 n))) 1 n 1 (fun _ j _ => Fin (f j)).
Proof.
  unfold along1. rewrite map_length, seq_length. split; [unfold wf; simpl; rewrite map_length, seq_length; lia|]. split; [reflexivity|].
  intros i j k Hi Hj Hk. unfold at_. cbn [elems shape ravel prod]. replace (i * (n * (1 * 1)) + (j * (1 * 1) + (k * 1 + 0)))%nat with j by nia.
  apply (nth_error_map_seq (fun i => Fin (f i))). exact Hj.
Qed.
Lemma along2_is3 f n : is3 (along2 (map (fun i => Fin (f i)) (seq 0 n))) 1 1 n (fun _ _ k => Fin (f k)).
Proof.
  unfold along2. rewrite map_length, seq_length. split; [unfold wf; simpl; rewrite map_length, seq_length; lia|]. split; [reflexivity|].
  intros i j k Hi Hj Hk. unfold at_. cbn [elems shape ravel prod]. replace (i * (1 * (n * 1)) + (j * (n * 1) + (k * 1 + 0)))%nat with k by nia.
  apply (nth_error_map_seq (fun i => Fin (f i))). exact Hk.
Qed.

Lemma map_is3 x a b c f g : is3 x a b c f -> is3 (np_map g x) a b c (fun i j k => g (f i j k)).
Proof.
  intros (W & Sh & H). unfold np_map. split; [unfold wf in *; cbn [elems shape]; rewrite map_length; exact W|]. split; [exact Sh|].
  intros i j k Hi Hj Hk. unfold at_. cbn [elems shape]. rewrite nth_error_map. specialize (H i j k Hi Hj Hk). unfold at_ in H. rewrite H. reflexivity.
Qed.

Definition sq (n i : nat) : nat := if Nat.eqb n 1 then O else i.
Definition fits (a a' n : nat) : Prop := a = n /\ a' = n \/ a = 1%nat /\ a' = n \/ a = n /\ a' = 1%nat.

Lemma bc_dim_fits a a' n : fits a a' n -> bc_dim a a' = Ok n.
Proof.
  unfold fits, bc_dim. intros H. destruct (Nat.eqb_spec a a') as [E|E]; [f_equal; lia|].
  destruct (Nat.eqb_spec a 1) as [E'|E']; [f_equal; lia|]. destruct (Nat.eqb_spec a' 1) as [E''|E'']; [f_equal; lia|lia].
Qed.

Lemma sq_lt a a' n i : fits a a' n -> (i < n)%nat -> (sq a i < a)%nat /\ (sq a' i < a')%nat.
Proof. unfold fits, sq. intros. destruct (Nat.eqb_spec a 1), (Nat.eqb_spec a' 1); lia. Qed.

Lemma zip_is3 x y a b c a' b' c' n m l f g h : is3 x a b c f -> is3 y a' b' c' g ->
  fits a a' n -> fits b b' m -> fits c c' l ->
  exists z, np_zip h x y = Ok z /\ is3 z n m l (fun i j k => h (f (sq a i) (sq b j) (sq c k)) (g (sq a' i) (sq b' j) (sq c' k))).
Proof.
  intros (Wx & Sx & Hx) (Wy & Sy & Hy) Fa Fb Fc. unfold np_zip. rewrite Sx, Sy. cbn [combine mapM fst snd].
  rewrite (bc_dim_fits _ _ _ Fa), (bc_dim_fits _ _ _ Fb), (bc_dim_fits _ _ _ Fc). cbn [bind].
  eexists. split; [reflexivity|]. split; [apply build_wf|]. split; [reflexivity|]. intros i j k Hi Hj Hk.
  rewrite build_at by (apply valid3; assumption). cbn [bc_idx combine map fst snd].
  change (if Nat.eqb a 1 then O else i) with (sq a i). change (if Nat.eqb b 1 then O else j) with (sq b j). change (if Nat.eqb c 1 then O else k) with (sq c k).
  change (if Nat.eqb a' 1 then O else i) with (sq a' i). change (if Nat.eqb b' 1 then O else j) with (sq b' j). change (if Nat.eqb c' 1 then O else k) with (sq c' k).
  destruct (sq_lt _ _ _ _ Fa Hi) as [A A']. destruct (sq_lt _ _ _ _ Fb Hj) as [B B']. destruct (sq_lt _ _ _ _ Fc Hk) as [C C'].
  pose proof (Hx _ _ _ A B C) as X. pose proof (Hy _ _ _ A' B' C') as Y.
  rewrite (getd_at x NaN) in X by (try exact Wx; rewrite Sx; apply valid3; assumption).
  rewrite (getd_at y NaN) in Y by (try exact Wy; rewrite Sy; apply valid3; assumption).
  injection X as X. injection Y as Y. cbn [nan xrNum]. rewrite X, Y. reflexivity.
Qed.

Lemma is3_ext x a b c f g : is3 x a b c f -> (forall i j k, (i < a)%nat -> (j < b)%nat -> (k < c)%nat -> f i j k = g i j k) -> is3 x a b c g.
Proof. intros (W & Sh & H) E. split; [exact W|]. split; [exact Sh|]. intros. rewrite H by assumption. rewrite E by assumption. reflexivity. Qed.

(** tiling along the first axis *)
Lemma nth_error_concat_repeat {A} (l : list A) n i j : (i < n)%nat -> (j < length l)%nat -> nth_error (concat (repeat l n)) (i * length l + j) = nth_error l j.
Proof.
  revert i. induction n as [|n IH]; intros i Hi Hj; [lia|]. cbn [repeat concat]. destruct i as [|i].
  - rewrite nth_error_app1 by exact Hj. reflexivity.
  - rewrite nth_error_app2 by nia. replace (S i * length l + j - length l)%nat with (i * length l + j)%nat by nia. apply IH; lia.
Qed.
Lemma length_concat_repeat {A} (l : list A) n : length (concat (repeat l n)) = (n * length l)%nat.
Proof. induction n as [|n IH]; [reflexivity|]. cbn [repeat concat]. rewrite app_length, IH. lia. Qed.

Lemma tile_is3 x b c f n : is3 x 1 b c f -> is3 (np_tile (Z.of_nat n) x) n b c (fun i j k => f O j k).
Proof.
  intros (W & Sh & H). unfold wf in W. rewrite Sh in W. cbn [prod] in W. unfold np_tile. rewrite Sh, Nat2Z.id. split; [|split].
  - unfold wf. cbn [elems shape prod]. rewrite length_concat_repeat, W. nia.
  - cbn [shape]. f_equal. lia.
  - intros i j k Hi Hj Hk. specialize (H O j k ltac:(lia) Hj Hk). unfold at_ in *. rewrite Sh in H. cbn [elems shape ravel prod] in *.
    rewrite <- H. replace (i * (b * (c * 1)) + (j * (c * 1) + (k * 1 + 0)))%nat with (i * length (elems x) + (j * c + k))%nat by (rewrite W; nia).
    rewrite nth_error_concat_repeat by (try assumption; rewrite W; nia). f_equal. lia.
Qed.

(** the extremes of finite elements *)
Lemma fold_min (l : list R) : forall a, exists m, fold_left (fun m v => if isnan m then m else if isnan v then v else if ltb v m then v else m) (map Fin l) (Fin a) = Fin m
  /\ In m (a :: l) /\ forall v, In v (a :: l) -> m <= v.
Proof.
  induction l as [|b l IH]; intros a.
  - exists a. split; [reflexivity|]. split; [left; reflexivity|]. intros v [<-|[]]; lra.
  - cbn [map fold_left isnan xrNum xr_isnan ltb xr_ltb]. destruct (Rltb_spec b a) as [H|H].
    + destruct (IH b) as (m & E & I & L). exists m. split; [exact E|]. split; [right; exact I|]. intros v [<-|Hv]; [|apply L; exact Hv].
      pose proof (L b (or_introl eq_refl)). lra.
    + destruct (IH a) as (m & E & I & L). exists m. split; [exact E|]. split; [destruct I as [I|I]; [left|right; right]; exact I|].
      intros v [<-|[<-|Hv]]; [apply L; left; reflexivity| |apply L; right; exact Hv]. pose proof (L a (or_introl eq_refl)). lra.
Qed.
Lemma fold_max (l : list R) : forall a, exists m, fold_left (fun m v => if isnan m then m else if isnan v then v else if ltb m v then v else m) (map Fin l) (Fin a) = Fin m
  /\ In m (a :: l) /\ forall v, In v (a :: l) -> v <= m.
Proof.
  induction l as [|b l IH]; intros a.
  - exists a. split; [reflexivity|]. split; [left; reflexivity|]. intros v [<-|[]]; lra.
  - cbn [map fold_left isnan xrNum xr_isnan ltb xr_ltb]. destruct (Rltb_spec a b) as [H|H].
    + destruct (IH b) as (m & E & I & L). exists m. split; [exact E|]. split; [right; exact I|]. intros v [<-|Hv]; [|apply L; exact Hv].
      pose proof (L b (or_introl eq_refl)). lra.
    + destruct (IH a) as (m & E & I & L). exists m. split; [exact E|]. split; [destruct I as [I|I]; [left|right; right]; exact I|].
      intros v [<-|[<-|Hv]]; [apply L; left; reflexivity| |apply L; right; exact Hv]. pose proof (L a (or_introl eq_refl)). lra.
Qed.

Lemma elems_all {A} (x : nd A) d : wf x -> elems x = map (getd x d) (all_idx (shape x)).
Proof.
  intros W. apply nth_error_ext. intros q. destruct (Nat.lt_ge_cases q (prod (shape x))) as [Hq|Hq].
  - destruct (nth_error (all_idx (shape x)) q) as [ix|] eqn:Eq; [|apply nth_error_None in Eq; rewrite length_all_idx in Eq; lia].
    assert (V : valid (shape x) ix) by (apply in_all_idx; eapply nth_error_In; exact Eq).
    assert (q = ravel (shape x) ix) as ->.
    { apply (proj1 (NoDup_nth_error (all_idx (shape x))) (NoDup_all_idx _)); [rewrite length_all_idx; exact Hq|].
      rewrite nth_error_all_idx by exact V. exact Eq. }
    rewrite nth_error_map, Eq. cbn [option_map]. apply (getd_at x d ix W V).
  - rewrite (proj2 (nth_error_None _ _)) by (unfold wf in W; lia). symmetry. apply nth_error_None. rewrite map_length, length_all_idx. exact Hq.
Qed.

Lemma is3_elems x a b c f : is3 x a b c (fun i j k => Fin (f i j k)) -> exists l, elems x = map Fin l
  /\ (forall r, In r l -> exists i j k, (i < a)%nat /\ (j < b)%nat /\ (k < c)%nat /\ r = f i j k)
  /\ (forall i j k, (i < a)%nat -> (j < b)%nat -> (k < c)%nat -> In (f i j k) l).
Proof.
  intros (W & Sh & H). exists (map (fun ix => match ix with [i; j; k] => f i j k | _ => 0 end) (all_idx [a; b; c])). split; [|split].
  - rewrite (elems_all x NaN W), Sh, map_map. apply map_ext_in. intros ix Hix. apply in_all_idx in Hix.
    destruct (valid3_inv _ _ _ _ Hix) as (i & j & k & -> & Hi & Hj & Hk). specialize (H i j k Hi Hj Hk).
    rewrite (getd_at x NaN) in H by (try exact W; rewrite Sh; exact Hix). congruence.
  - intros r Hr. apply in_map_iff in Hr. destruct Hr as (ix & <- & Hix). apply in_all_idx in Hix.
    destruct (valid3_inv _ _ _ _ Hix) as (i & j & k & -> & Hi & Hj & Hk). exists i, j, k. auto.
  - intros i j k Hi Hj Hk. apply in_map_iff. exists [i; j; k]. split; [reflexivity|]. apply in_all_idx. apply valid3; assumption.
Qed.

Lemma min_is3 x a b c f : is3 x a b c (fun i j k => Fin (f i j k)) -> (0 < a)%nat -> (0 < b)%nat -> (0 < c)%nat ->
  exists m, np_min x = Ok (Fin m) /\ (exists i j k, (i < a)%nat /\ (j < b)%nat /\ (k < c)%nat /\ m = f i j k)
    /\ forall i j k, (i < a)%nat -> (j < b)%nat -> (k < c)%nat -> m <= f i j k.
Proof.
  intros H Ha Hb Hc. destruct (is3_elems _ _ _ _ f H) as (l & E & I & J). unfold np_min. rewrite E.
  destruct l as [|r l]; [destruct (J O O O Ha Hb Hc)|]. cbn [map]. destruct (fold_min l r) as (m & -> & Im & L). exists m. split; [reflexivity|].
  split; [exact (I m Im)|]. intros i j k Hi Hj Hk. apply L. apply J; assumption.
Qed.
Lemma max_is3 x a b c f : is3 x a b c (fun i j k => Fin (f i j k)) -> (0 < a)%nat -> (0 < b)%nat -> (0 < c)%nat ->
  exists m, np_max x = Ok (Fin m) /\ (exists i j k, (i < a)%nat /\ (j < b)%nat /\ (k < c)%nat /\ m = f i j k)
    /\ forall i j k, (i < a)%nat -> (j < b)%nat -> (k < c)%nat -> f i j k <= m.
Proof.
  intros H Ha Hb Hc. destruct (is3_elems _ _ _ _ f H) as (l & E & I & J). unfold np_max. rewrite E.
  destruct l as [|r l]; [destruct (J O O O Ha Hb Hc)|]. cbn [map]. destruct (fold_max l r) as (m & -> & Im & L). exists m. split; [reflexivity|].
  split; [exact (I m Im)|]. intros i j k Hi Hj Hk. apply L. apply J; assumption.
Qed.

(** ** The surface *)
Definition latitude (nj j : nat) : R := lin (-80) 60 nj j.
Definition polyT (y : R) : R := let x := (y - -7) / (4114 / 100) in
  6265 / 10000 * x ^ 5 + 3269 / 1000 * x ^ 4 + -3602 / 1000 * x ^ 3 + -1893 / 100 * x ^ 2 + 5927 / 1000 * x + 2741 / 100.
Definition polyS (y : R) : R := let x := (y - -7) / (4114 / 100) in
  2221 / 10000 * x ^ 4 + -9487 / 100000 * x ^ 3 + -1355 / 1000 * x ^ 2 + -126 / 1000 * x + 3559 / 100.

Ltac rlit := rewrite ?Rlit_0; repeat match goal with |- context [Rlit ?m (Zneg ?p)] =>
  let v := eval vm_compute in (10 ^ Zpos p)%Z in change (Rlit m (Zneg p)) with (IZR m / IZR v) end.
Lemma normed_fin y : normed (Fin y) = Fin ((y - -7) / (4114 / 100)).
Proof. unfold normed. cbn [sub div lit xrNum xr_sub]. rlit. rewrite xr_div_fin by lra. reflexivity. Qed.
Lemma fpow_fin x n : fpow (Fin x) (S n) = Fin (x ^ S n).
Proof.
  induction n as [|n IH]; [cbn; f_equal; ring|]. change (fpow (Fin x) (S (S n))) with (mul (fpow (Fin x) (S n)) (Fin x)). rewrite IH.
  cbn [mul xrNum xr_mul]. f_equal. simpl. ring.
Qed.
Ltac lits := cbn [add sub mul div lit xrNum xr_add xr_sub xr_mul]; rlit.
Lemma polyT_fin y : poly_T (normed (Fin y)) = Fin (polyT y).
Proof. rewrite normed_fin. unfold poly_T. rewrite !fpow_fin. lits. reflexivity. Qed.
Lemma polyS_fin y : poly_S (normed (Fin y)) = Fin (polyS y).
Proof. rewrite normed_fin. unfold poly_S. rewrite !fpow_fin. lits. reflexivity. Qed.

Definition rawT (ni nj : nat) (zu : bool) (i j : nat) : R :=
  if zu then polyT (latitude nj j) else polyT (latitude nj j) - 15 / 10 * lin (-1) 1 ni i.
Definition surfS (ni nj : nat) (a : R) (zu : bool) (i j : nat) : R :=
  (if zu then polyS (latitude nj j)
   else polyS (latitude nj j) + (4 / 10 + 5 / 10 * lin (-1) 1 ni i - 8 / 10 * lin (-1) 1 ni i ^ 2)) + lin a 0 nj j.

Definition lons (ni : nat) : nd xr := along0 (map (fun i => Fin (lin (-1) 1 ni i)) (seq 0 ni)).
Definition lats (nj : nat) : nd xr := along1 (map (fun j => Fin (latitude nj j)) (seq 0 nj)).

Lemma sq_lt1 n i : (i < n)%nat -> sq n i = i.
Proof. unfold sq. destruct (Nat.eqb_spec n 1); lia. Qed.
Lemma sq_1 i : sq 1 i = O.
Proof. reflexivity. Qed.
Lemma fits_same n : fits n n n.
Proof. left; auto. Qed.
Lemma fits_l n : fits 1 n n.
Proof. right; left; auto. Qed.
Lemma fits_r n : fits n 1 n.
Proof. right; right; auto. Qed.

Lemma rawT_is3 ni nj (zu : bool) : exists x, (if zu then Ok (np_tile (Z.of_nat ni) (np_map (fun y : xr => poly_T (normed y)) (lats nj)))
    else np_zip sub (np_map (fun y : xr => poly_T (normed y)) (lats nj)) (np_map (fun x : xr => mul (lit 15 (-1)) x) (lons ni))) = Ok x
  /\ is3 x ni nj 1 (fun i j _ => Fin (rawT ni nj zu i j)).
Proof.
  pose proof (map_is3 _ _ _ _ _ (fun y : xr => poly_T (normed y)) (along1_is3 (latitude nj) nj)) as A. cbv beta in A. fold (lats nj) in A.
  destruct zu.
  - eexists. split; [reflexivity|]. eapply is3_ext; [apply tile_is3; exact A|]. intros i j k Hi Hj Hk. cbv beta. rewrite polyT_fin. reflexivity.
  - pose proof (map_is3 _ _ _ _ _ (fun x : xr => mul (lit 15 (-1)) x) (along0_is3 (lin (-1) 1 ni) ni)) as B. cbv beta in B. fold (lons ni) in B.
    destruct (zip_is3 _ _ _ _ _ _ _ _ ni nj 1%nat _ _ (@sub xr _) A B (fits_l ni) (fits_r nj) (fits_same 1)) as (z & E & Hz).
    exists z. split; [exact E|]. eapply is3_ext; [exact Hz|]. intros i j k Hi Hj Hk. cbv beta. rewrite polyT_fin, !sq_lt1 by assumption. lits. reflexivity.
Qed.

Definition scaled (lo hi t : R) : R := (t - lo) / (hi - lo) * (300 / 10 - -18 / 10) + -18 / 10.

Lemma surface_T_spec ni nj zu : (0 < ni)%nat -> (0 < nj)%nat ->
  exists Ts lo hi, surface_T (Z.of_nat ni) (lons ni) (lats nj) zu = Ok Ts
    /\ (exists i j, (i < ni)%nat /\ (j < nj)%nat /\ lo = rawT ni nj zu i j) /\ (forall i j, (i < ni)%nat -> (j < nj)%nat -> lo <= rawT ni nj zu i j)
    /\ (exists i j, (i < ni)%nat /\ (j < nj)%nat /\ hi = rawT ni nj zu i j) /\ (forall i j, (i < ni)%nat -> (j < nj)%nat -> rawT ni nj zu i j <= hi)
    /\ is3 Ts ni nj 1 (fun i j _ => if Req_EM_T lo hi then NaN else Fin (scaled lo hi (rawT ni nj zu i j))).
Proof.
  intros Hi Hj. unfold surface_T. destruct (rawT_is3 ni nj zu) as (x & -> & Hx). cbn [bind].
  destruct (min_is3 x ni nj 1 (fun i j _ => rawT ni nj zu i j) Hx Hi Hj ltac:(lia)) as (lo & -> & (i1 & j1 & k1 & Hi1 & Hj1 & _ & E1) & L1).
  destruct (max_is3 x ni nj 1 (fun i j _ => rawT ni nj zu i j) Hx Hi Hj ltac:(lia)) as (hi & -> & (i2 & j2 & k2 & Hi2 & Hj2 & _ & E2) & L2).
  cbn [bind]. eexists. exists lo, hi. split; [reflexivity|]. split; [exists i1, j1; auto|]. split; [intros i j A B; apply (L1 i j O A B); lia|].
  split; [exists i2, j2; auto|]. split; [intros i j A B; apply (L2 i j O A B); lia|].
  eapply is3_ext; [apply map_is3; exact Hx|]. intros i j k A B C. cbv beta.
  destruct (Req_EM_T lo hi) as [E|E].
  - assert (R : rawT ni nj zu i j = lo) by (pose proof (L1 i j k A B C); pose proof (L2 i j k A B C); cbv beta in *; lra). rewrite R.
    unfold Tmax, Tmin. cbn [add sub mul div lit xrNum xr_sub]. unfold xr_div. destruct (Req_EM_T _ 0) as [_|]; [|lra].
    unfold Rsgn_inf. destruct (Rlt_dec 0 _); [lra|]. destruct (Rlt_dec _ 0); [lra|]. reflexivity.
  - unfold Tmax, Tmin. cbn [sub div lit xrNum xr_sub]. rewrite xr_div_fin by lra. lits. reflexivity.
Qed.

Lemma surface_S_spec ni nj a (zu : bool) : exists Ss, surface_S (Z.of_nat ni) (Z.of_nat nj) (lons ni) (lats nj) (Fin a) zu = Ok Ss
  /\ is3 Ss ni nj 1 (fun i j _ => Fin (surfS ni nj a zu i j)).
Proof.
  unfold surface_S. pose proof (map_is3 _ _ _ _ _ (fun y : xr => poly_S (normed y)) (along1_is3 (latitude nj) nj)) as A. cbv beta in A. fold (lats nj) in A.
  assert (B : exists x, (if zu then Ok (np_tile (Z.of_nat ni) (np_map (fun y : xr => poly_S (normed y)) (lats nj)))
      else np_zip add (np_map (fun y : xr => poly_S (normed y)) (lats nj))
             (np_map (fun x : xr => sub (add (lit 4 (-1)) (mul (lit 5 (-1)) x)) (mul (lit 8 (-1)) (fpow x 2))) (lons ni))) = Ok x
    /\ is3 x ni nj 1 (fun i j _ => Fin (if zu then polyS (latitude nj j)
         else polyS (latitude nj j) + (4 / 10 + 5 / 10 * lin (-1) 1 ni i - 8 / 10 * lin (-1) 1 ni i ^ 2)))).
  { destruct zu.
    - eexists. split; [reflexivity|]. eapply is3_ext; [apply tile_is3; exact A|]. intros i j k Hi Hj Hk. cbv beta. rewrite polyS_fin. reflexivity.
    - pose proof (map_is3 _ _ _ _ _ (fun x : xr => sub (add (lit 4 (-1)) (mul (lit 5 (-1)) x)) (mul (lit 8 (-1)) (fpow x 2))) (along0_is3 (lin (-1) 1 ni) ni)) as B.
      cbv beta in B. fold (lons ni) in B.
      destruct (zip_is3 _ _ _ _ _ _ _ _ ni nj 1%nat _ _ (@add xr _) A B (fits_l ni) (fits_r nj) (fits_same 1)) as (z & E & Hz).
      exists z. split; [exact E|]. eapply is3_ext; [exact Hz|]. intros i j k Hi Hj Hk. cbv beta. rewrite polyS_fin, !sq_lt1 by assumption. rewrite !fpow_fin. lits. reflexivity. }
  destruct B as (x & -> & Hx). cbn [bind]. change (@zero xr _) with (Fin (Rlit 0 0)). rewrite Rlit_0, linspace_real. cbn [bind].
  destruct (zip_is3 _ _ _ _ _ _ _ _ ni nj 1%nat _ _ (@add xr _) Hx (along1_is3 (lin a 0 nj) nj) (fits_r ni) (fits_same nj) (fits_same 1)) as (z & E & Hz).
  exists z. split; [exact E|]. eapply is3_ext; [exact Hz|]. intros i j k Hi Hj Hk. cbv beta. rewrite !sq_lt1 by assumption. reflexivity.
Qed.

(** filling *)
Lemma fill_spec ni nj nk b s bf sf : is3 b 1 nj 1 (fun _ j _ => Fin (bf j)) -> is3 s ni nj 1 (fun i j _ => sf i j) ->
  exists z, fill (Z.of_nat nk) b s = Ok z /\ is3 z ni nj nk (fun i j k => add (mul (Fin (fraction k nk)) (sub (Fin (bf j)) (sf i j))) (sf i j)).
Proof.
  intros Hb Hs. unfold fill. change (@zero xr _) with (Fin (Rlit 0 0)). change (@one xr _) with (Fin (Rlit 1 0)). rewrite !Rlit_0, linspace_real. cbn [bind].
  destruct (zip_is3 _ _ _ _ _ _ _ _ ni nj 1%nat _ _ (@sub xr _) Hb Hs (fits_l ni) (fits_same nj) (fits_same 1)) as (d & -> & Hd). cbn [bind].
  destruct (zip_is3 _ _ _ _ _ _ _ _ ni nj nk _ _ (@mul xr _) (along2_is3 (lin 0 1 nk) nk) Hd (fits_l ni) (fits_l nj) (fits_r nk)) as (m & -> & Hm). cbn [bind].
  destruct (zip_is3 _ _ _ _ _ _ _ _ ni nj nk _ _ (@add xr _) Hm Hs (fits_same ni) (fits_same nj) (fits_r nk)) as (z & -> & Hz).
  exists z. split; [reflexivity|]. eapply is3_ext; [exact Hz|]. intros i j k Hi Hj Hk. cbv beta.
  rewrite !(sq_lt1 ni i Hi), !(sq_lt1 nj j Hj), !(sq_lt1 nk k Hk).
  replace (lin 0 1 nk k) with (fraction k nk) by (unfold lin; ring). reflexivity.
Qed.

Lemma walls_spec ni nj nk (w0 w1 : bool) x f : (0 < ni)%nat -> (0 < nj)%nat -> is3 x ni nj nk f ->
  exists z, walls w0 w1 x = Ok z
    /\ is3 z ni nj nk (fun i j k => if (negb w0 && Nat.eqb i 0) || (negb w1 && Nat.eqb j 0) then NaN else f i j k).
Proof.
  intros Hni Hnj Hx. unfold walls.
  assert (A : exists y, (if w0 then Ok x else wall0 x) = Ok y /\ is3 y ni nj nk (fun i j k => if negb w0 && Nat.eqb i 0 then NaN else f i j k)).
  { destruct w0; [exists x; split; [reflexivity|exact Hx]|]. destruct Hx as (W & Sh & H). unfold wall0. rewrite Sh.
    destruct ni as [|ni]; [lia|]. eexists. split; [reflexivity|]. split; [apply build_wf|]. split; [reflexivity|]. intros i j k Hi Hj Hk.
    rewrite build_at by (apply valid3; assumption). cbn [negb andb]. destruct i as [|i]; [reflexivity|]. cbn [Nat.eqb].
    pose proof (H (S i) j k Hi Hj Hk) as E. rewrite (getd_at x NaN) in E by (try exact W; rewrite Sh; apply valid3; assumption). exact E. }
  destruct A as (y & -> & (W & Sh & H)). cbn [bind]. destruct w1; [exists y; split; [reflexivity|]; split; [exact W|]; split; [exact Sh|];
    intros i j k Hi Hj Hk; rewrite H by assumption; cbn [negb andb]; rewrite orb_false_r; reflexivity|].
  unfold wall1. rewrite Sh. destruct nj as [|nj]; [lia|]. eexists. split; [reflexivity|]. split; [apply build_wf|]. split; [reflexivity|]. intros i j k Hi Hj Hk.
  rewrite build_at by (apply valid3; assumption). cbn [negb andb]. destruct j as [|j]; [cbn [Nat.eqb]; rewrite orb_true_r; reflexivity|]. cbn [Nat.eqb].
  rewrite orb_false_r. pose proof (H i (S j) k Hi Hj Hk) as E. rewrite (getd_at y NaN) in E by (try exact W; rewrite Sh; apply valid3; assumption). exact E.
Qed.

(** ** The whole *)
Definition wallb (w0 w1 : bool) (i j : nat) : bool := (negb w0 && Nat.eqb i 0) || (negb w1 && Nat.eqb j 0).
Definition botT (nj j : nat) : R := fraction j nj + (-18 / 10 - 1 / 10).
Definition botS (nj j : nat) : R := lin (347 / 10) (345 / 10) nj j.
Definition between (r b s : R) : R := r * (b - s) + s.

Definition result (ni nj nk : nat) (pbot a : R) (zu w0 w1 : bool) (S T : nd xr) (P : list xr) (lo hi : R) : Prop :=
  (exists i j, (i < ni)%nat /\ (j < nj)%nat /\ lo = rawT ni nj zu i j) /\ (forall i j, (i < ni)%nat -> (j < nj)%nat -> lo <= rawT ni nj zu i j)
  /\ (exists i j, (i < ni)%nat /\ (j < nj)%nat /\ hi = rawT ni nj zu i j) /\ (forall i j, (i < ni)%nat -> (j < nj)%nat -> rawT ni nj zu i j <= hi)
  /\ is3 S ni nj nk (fun i j k => if wallb w0 w1 i j then NaN else Fin (between (fraction k nk) (botS nj j) (surfS ni nj a zu i j)))
  /\ is3 T ni nj nk (fun i j k => if wallb w0 w1 i j then NaN else if Req_EM_T lo hi then NaN
                        else Fin (between (fraction k nk) (botT nj j) (scaled lo hi (rawT ni nj zu i j))))
  /\ P = map (fun k => Fin (fraction k nk ^ 3 * pbot)) (seq 0 nk).

Theorem whole ni nj nk pbot a zu w0 w1 : (0 < ni)%nat -> (0 < nj)%nat ->
  exists S T P lo hi, synthocean (Z.of_nat ni) (Z.of_nat nj) (Z.of_nat nk) (Fin pbot) (Fin a) zu w0 w1 = Ok (S, T, P)
    /\ result ni nj nk pbot a zu w0 w1 S T P lo hi.
Proof.
  intros Hni Hnj. unfold synthocean. change (@zero xr _) with (Fin (Rlit 0 0)). change (@one xr _) with (Fin (Rlit 1 0)).
  unfold Ysouth, Ynorth. cbn [lit xrNum]. rlit. rewrite !linspace_real. cbn [bind]. change (along0 (map (fun i => Fin (lin (-1) 1 ni i)) (seq 0 ni))) with (lons ni).
  change (along1 (map (fun i => Fin (lin (-80) 60 nj i)) (seq 0 nj))) with (lats nj).
  destruct (surface_T_spec ni nj zu Hni Hnj) as (Ts & lo & hi & -> & A1 & A2 & A3 & A4 & HT). cbn [bind].
  destruct (surface_S_spec ni nj a zu) as (Ss & -> & HS). cbn [bind].
  destruct (fill_spec ni nj nk _ Ss (botS nj) _ (along1_is3 (botS nj) nj) HS) as (Sa & E1 & H1). unfold botS in E1. rewrite E1. cbn [bind]. clear E1.
  pose proof (map_is3 _ _ _ _ _ (fun t => add t (sub Tmin (Fin (1 / 10)))) (along1_is3 (lin 0 1 nj) nj)) as B.
  assert (B' := is3_ext _ _ _ _ _ (fun _ j _ => Fin (botT nj j)) B).
  destruct (fill_spec ni nj nk _ Ts (botT nj) _ (B' ltac:(intros i j k _ _ _; cbv beta; unfold Tmin; lits; unfold botT, lin; f_equal; ring)) HT) as (Ta & -> & H2). cbn [bind].
  destruct (walls_spec ni nj nk w0 w1 _ _ Hni Hnj H1) as (Sb & -> & H3). cbn [bind].
  destruct (walls_spec ni nj nk w0 w1 _ _ Hni Hnj H2) as (Tb & -> & H4). cbn [bind].
  exists Sb, Tb. eexists. exists lo, hi. split; [reflexivity|]. split; [exact A1|]. split; [exact A2|]. split; [exact A3|]. split; [exact A4|]. split; [|split].
  - eapply is3_ext; [exact H3|]. intros i j k Hi Hj Hk. cbv beta. unfold wallb. destruct (_ || _); [reflexivity|]. lits. reflexivity.
  - eapply is3_ext; [exact H4|]. intros i j k Hi Hj Hk. cbv beta. unfold wallb. destruct (_ || _); [reflexivity|].
    destruct (Req_EM_T lo hi); [reflexivity|]. lits. reflexivity.
  - rewrite map_map. apply map_ext. intros k. rewrite fpow_fin. cbn [mul xrNum xr_mul]. replace (lin 0 1 nk k) with (fraction k nk) by (unfold lin; ring). reflexivity.
Qed.
