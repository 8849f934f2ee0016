(** * Static stability: stabilising *)
From Coq Require Import String ZArith Bool Reals Lra Lia List.
From Verif Require Import Num XR Res Arr ArrLemmas Nd NdLemmas XRlemmas M_lib M_ppinterp P_ppinterp S_lib P_casts M_mixed_layer S_traj S_mixed_layer
  P_mixed_layer P_mixed_layer2 M_stability S_stability P_stability.
Import ListNotations.
Local Open Scope R_scope.

(** the numbers f k, ..., f (k+n-1) *)
Definition vec (f : nat -> R) (k n : nat) : list xr := map (fun i => Fin (f (k + i)%nat)) (seq 0 n).

Lemma length_vec f k n : length (vec f k n) = n.
Proof. unfold vec. rewrite map_length, seq_length. reflexivity. Qed.

Lemma nth_error_vec f k n i : (i < n)%nat -> nth_error (vec f k n) i = Some (Fin (f (k + i)%nat)).
Proof. intros H. unfold vec. rewrite nth_error_map, (nth_error_nth' _ 0%nat) by (rewrite seq_length; exact H). rewrite seq_nth by exact H. reflexivity. Qed.

Lemma in_vec f k n x : In x (vec f k n) <-> exists i, (i < n)%nat /\ x = Fin (f (k + i)%nat).
Proof.
  unfold vec. rewrite in_map_iff. split.
  - intros (i & <- & H). apply in_seq in H. exists i. split; [lia|reflexivity].
  - intros (i & H & ->). exists i. split; [reflexivity|]. apply in_seq. lia.
Qed.

Lemma vec_ext f g k n : (forall i, (k <= i < k + n)%nat -> f i = g i) -> vec f k n = vec g k n.
Proof. intros H. apply map_ext_in. intros i Hi. apply in_seq in Hi. rewrite H by lia. reflexivity. Qed.

Lemma removelast_vec f k n : removelast (vec f k n) = vec f k (n - 1).
Proof.
  destruct n as [|n]; [reflexivity|]. unfold vec. rewrite seq_S, map_app. cbn [map]. rewrite removelast_app by discriminate.
  cbn [removelast]. rewrite app_nil_r. replace (S n - 1)%nat with n by lia. reflexivity.
Qed.

Lemma tl_vec f k n : tl (vec f k n) = vec (fun i => f (i + 1)%nat) k (n - 1).
Proof.
  destruct n as [|n]; [reflexivity|]. unfold vec. cbn [seq map tl]. rewrite <- seq_shift, map_map.
  replace (S n - 1)%nat with n by lia. apply map_ext. intros i. do 2 f_equal. lia.
Qed.

Lemma combine_maps {A B C} (f : A -> B) (g : A -> C) l : combine (map f l) (map g l) = map (fun x => (f x, g x)) l.
Proof. induction l as [|x l IH]; [reflexivity|]. simpl. rewrite IH. reflexivity. Qed.

Lemma np_bin_vec op f g h k n : (forall i, (k <= i < k + n)%nat -> op (Fin (f i)) (Fin (g i)) = Fin (h i)) ->
  np_bin op (vec f k n) (vec g k n) = Ok (vec h k n).
Proof.
  intros H. unfold np_bin. rewrite !length_vec, Nat.eqb_refl. f_equal. unfold vec. rewrite combine_maps, map_map.
  apply map_ext_in. intros i Hi. apply in_seq in Hi. cbn [fst snd]. apply H. lia.
Qed.

Lemma eos_vec_vec eos rho f g h k n : eos_real eos rho ->
  eos_vec eos (vec f k n) (vec g k n) (vec h k n) = Ok (vec (fun i => rho (f i) (g i) (h i)) k n).
Proof.
  intros He. unfold eos_vec, vec. rewrite !combine_maps.
  rewrite (mapM_map _ _ (fun i => Fin (rho (f (k + i)%nat) (g (k + i)%nat) (h (k + i)%nat)))); [reflexivity|].
  intros i _. cbn [fst snd]. apply He.
Qed.

Lemma half x : div (Fin x) (@lit xr _ 2 0) = Fin (x / 2).
Proof. cbn [div lit xrNum]. rewrite Rlit_0. apply xr_div_fin. lra. Qed.

Definition increasing_on (ps : nat -> R) k n := forall i, (k <= i)%nat -> (i + 1 < k + n)%nat -> ps i < ps (i + 1)%nat.

(** the common computation: gradients of the levels k..k+n-1 *)
Lemma grad_vec eos rho ss ts ps k n : eos_real eos rho -> increasing_on ps k n ->
  (let! q := np_bin add (removelast (vec ps k n)) (tl (vec ps k n)) in
   let p_avg := map (fun x => div x (lit 2 0)) q in
   let! r1 := eos_vec eos (removelast (vec ss k n)) (removelast (vec ts k n)) p_avg in
   let! r2 := eos_vec eos (tl (vec ss k n)) (tl (vec ts k n)) p_avg in
   let! ds := np_bin sub r2 r1 in
   let! dp := np_bin sub (tl (vec ps k n)) (removelast (vec ps k n)) in
   np_bin div ds dp) = Ok (vec (lrpd_grad rho ss ts ps) k (n - 1)).
Proof.
  intros He Hi. rewrite !removelast_vec, !tl_vec.
  rewrite (np_bin_vec add _ _ (fun i => ps i + ps (i + 1)%nat)) by (intros; reflexivity). cbn [bind].
  replace (map (fun x => div x (@lit xr _ 2 0)) (vec (fun i => ps i + ps (i + 1)%nat) k (n - 1)))
    with (vec (fun i => (ps i + ps (i + 1)%nat) / 2) k (n - 1)).
  2:{ unfold vec. rewrite map_map. apply map_ext. intros i. rewrite half. reflexivity. }
  rewrite !(eos_vec_vec eos rho) by exact He. cbn [bind].
  rewrite (np_bin_vec sub _ _ (fun i => rho (ss (i + 1)%nat) (ts (i + 1)%nat) ((ps i + ps (i + 1)%nat) / 2) - rho (ss i) (ts i) ((ps i + ps (i + 1)%nat) / 2)))
    by (intros; reflexivity). cbn [bind].
  rewrite (np_bin_vec sub _ _ (fun i => ps (i + 1)%nat - ps i)) by (intros; reflexivity). cbn [bind].
  apply np_bin_vec. intros i Hk. cbn [div xrNum]. rewrite xr_div_fin; [reflexivity|]. specialize (Hi i). lra || (assert (ps i < ps (i + 1)%nat) by (apply Hi; lia); lra).
Qed.

Lemma calc_vec eos rho ss ts ps k n : eos_real eos rho -> increasing_on ps k n ->
  calc_dLRPDdp_fd_1 (vec ss k n) (vec ts k n) (vec ps k n) eos = Ok (vec (lrpd_grad rho ss ts ps) k (n - 1)).
Proof. intros He Hi. unfold calc_dLRPDdp_fd_1. apply (grad_vec eos rho ss ts ps k n He Hi). Qed.

(** the perturbation as functions of the level *)
Definition dS (xs : list R) (k i : nat) : R := nth (i - k) xs 0.
Definition dT (xs : list R) (k n i : nat) : R := nth (n + (i - k)) xs 0.

Lemma split_vec xs k n : length xs = (2 * n)%nat ->
  firstn n (map Fin xs) = vec (dS xs k) k n /\ skipn n (map Fin xs) = vec (dT xs k n) k n.
Proof.
  intros L. split; apply nth_error_ext; intros i.
  - destruct (Nat.lt_ge_cases i n) as [H|H].
    + rewrite nth_error_vec by exact H. rewrite nth_error_firstn by exact H. rewrite nth_error_map, (nth_error_nth' _ 0) by lia.
      unfold dS. cbn [option_map]. do 3 f_equal. lia.
    + rewrite (proj2 (nth_error_None _ _)), (proj2 (nth_error_None _ _)); [reflexivity|rewrite length_vec; lia|rewrite firstn_length; lia].
  - destruct (Nat.lt_ge_cases i n) as [H|H].
    + rewrite nth_error_vec by exact H. rewrite nth_error_skipn. rewrite nth_error_map, (nth_error_nth' _ 0) by lia.
      unfold dT. cbn [option_map]. do 3 f_equal. lia.
    + rewrite (proj2 (nth_error_None _ _)), (proj2 (nth_error_None _ _)); [reflexivity|rewrite length_vec; lia|rewrite skipn_length, map_length; lia].
Qed.

Lemma perturb_vec eos rho ss ts ps md k n xs : eos_real eos rho -> increasing_on ps k n -> length xs = (2 * n)%nat ->
  perturb_dLRPDdp_fd_1 (vec ss k n) (vec ts k n) (vec ps k n) (vec md k (n - 1)) eos (map Fin xs)
  = Ok (vec (fun i => lrpd_grad rho (fun i => ss i + dS xs k i) (fun i => ts i + dT xs k n i) ps i - md i) k (n - 1)).
Proof.
  intros He Hi L. unfold perturb_dLRPDdp_fd_1. rewrite map_length, L.
  replace (Nat.div (2 * n) 2) with n by (rewrite Nat.mul_comm, Nat.div_mul; lia).
  destruct (split_vec xs k n L) as [-> ->].
  rewrite (np_bin_vec add ss (dS xs k) (fun i => ss i + dS xs k i)) by (intros; reflexivity). cbn [bind].
  rewrite (np_bin_vec add ts (dT xs k n) (fun i => ts i + dT xs k n i)) by (intros; reflexivity). cbn [bind].
  pose proof (grad_vec eos rho (fun i => ss i + dS xs k i) (fun i => ts i + dT xs k n i) ps k n He Hi) as G. cbv zeta in G. cbv zeta.
  revert G. generalize (vec (fun i => ss i + dS xs k i) k n) (vec (fun i => ts i + dT xs k n i) k n) (vec ps k n). intros l1 l2 l3.
  destruct (np_bin add (removelast l3) (tl l3)) as [q|]; [|discriminate]. cbn [bind].
  destruct (eos_vec eos (removelast l1) _ _) as [r1|]; [|discriminate]. cbn [bind].
  destruct (eos_vec eos (tl l1) _ _) as [r2|]; [|discriminate]. cbn [bind].
  destruct (np_bin sub r2 r1) as [d1|]; [|discriminate]. cbn [bind].
  destruct (np_bin sub (tl l3) _) as [d2|]; [|discriminate]. cbn [bind].
  intros ->. cbn [bind]. apply np_bin_vec. intros; reflexivity.
Qed.

Lemma any_lt_vec f g k n : exists b, np_any_lt (vec f k n) (vec g k n) = Ok b /\ (b = true <-> exists i, (k <= i < k + n)%nat /\ f i < g i).
Proof.
  unfold np_any_lt. rewrite !length_vec, Nat.eqb_refl. eexists. split; [reflexivity|]. unfold vec. rewrite combine_maps, existsb_exists. split.
  - intros (x & Hin & Hx). apply in_map_iff in Hin. destruct Hin as (i & <- & Hi). apply in_seq in Hi. cbn in Hx.
    exists (k + i)%nat. split; [lia|]. destruct (Rltb_spec (f (k + i)%nat) (g (k + i)%nat)); [assumption|discriminate].
  - intros (i & Hi & H). exists (Fin (f i), Fin (g i)). split.
    + apply in_map_iff. exists (i - k)%nat. replace (k + (i - k))%nat with i by lia. split; [reflexivity|]. apply in_seq. lia.
    + cbn. apply Rltb_true. exact H.
Qed.

(** ** One cast *)
Lemma slice_vec (l : list xr) f k K : (k <= K <= length l)%nat -> (forall i, (k <= i < K)%nat -> nth_error l i = Some (Fin (f i))) ->
  slice l k K = vec f k (K - k).
Proof.
  intros HK H. apply nth_error_ext. intros i. destruct (Nat.lt_ge_cases i (K - k)) as [Hi|Hi].
  - rewrite nth_error_slice, nth_error_vec by exact Hi. apply H. lia.
  - rewrite (proj2 (nth_error_None _ _)), (proj2 (nth_error_None _ _)); [reflexivity|rewrite length_vec; lia|rewrite length_slice; lia].
Qed.

Lemma isfinite_fin r : isfinite (Fin r) = true.
Proof. reflexivity. Qed.

Lemma profile_range S T P k K ss ts ps : profile S T P k K ss ts ps -> valid_range_1 S = Ok (k, K).
Proof.
  intros [LT LP HK HS HT HP Hinc Hpre Hpost].
  destruct (valid_range_1_spec S) as (k' & K' & E & H1 & H2 & H3 & H4 & H5). rewrite E.
  assert (In_ : forall i, (k <= i < K)%nat -> nth i S nan = Fin (ss i)) by (intros i Hi; apply nth_error_nth_iff; auto).
  assert (Pre : forall i, (i < k)%nat -> nth i S nan = NaN) by (intros i Hi; apply nth_error_nth_iff; auto).
  assert (k' = k) as ->.
  { destruct (Nat.lt_trichotomy k' k) as [H|[H|H]]; [|exact H|]; exfalso.
    - destruct (H3 ltac:(lia)) as [A _]. rewrite Pre in A by exact H. discriminate.
    - specialize (H2 k H). rewrite In_ in H2 by lia. discriminate. }
  assert (K' = K) as ->; [|reflexivity].
  destruct (Nat.lt_trichotomy K' K) as [H|[H|H]]; [|exact H|]; exfalso.
  - destruct (H5 ltac:(lia)) as [A B]. rewrite In_ in A by lia. discriminate.
  - assert (A : nth K S nan = NaN) by (apply nth_error_nth_iff; apply Hpost; lia).
    specialize (H4 K ltac:(lia)). rewrite A in H4. discriminate.
Qed.

Lemma missing_range S : all_missing S -> exists k K, valid_range_1 S = Ok (k, K) /\ slice S k K = [].
Proof.
  intros H. destruct (valid_range_1_spec S) as (k & K & E & H1 & H2 & H3 & _). exists k, K. split; [exact E|].
  assert (k = length S).
  { destruct (Nat.lt_ge_cases k (length S)) as [Hk|Hk]; [|lia]. destruct (H3 Hk) as [A _]. exfalso.
    rewrite (H (nth k S nan)) in A by (apply nth_In; exact Hk). discriminate. }
  assert (length (slice S k K) = 0)%nat by (rewrite length_slice; lia). destruct (slice S k K); [reflexivity|discriminate].
Qed.

Lemma length_add_slice (l : list xr) k K d l' : (k <= K <= length l)%nat -> add_slice l k K d = Ok l' -> length l' = length l.
Proof.
  intros HK. unfold add_slice. destruct (np_bin add (slice l k K) d) as [m|]; [|discriminate]. cbn [bind].
  destruct (Nat.eqb_spec (length m) (K - k)) as [E|]; [|discriminate]. intros E'. injection E' as <-.
  rewrite !app_length, firstn_length, skipn_length. lia.
Qed.

Lemma add_slice_vec (l : list xr) f g k K : (k <= K <= length l)%nat -> slice l k K = vec f k (K - k) ->
  exists l', add_slice l k K (vec g k (K - k)) = Ok l' /\ length l' = length l
    /\ (forall i, (k <= i < K)%nat -> nth_error l' i = Some (Fin (f i + g i)))
    /\ (forall i, (i < k \/ K <= i)%nat -> nth_error l' i = nth_error l i).
Proof.
  intros HK E. unfold add_slice. rewrite E. rewrite (np_bin_vec add f g (fun i => f i + g i)) by (intros; reflexivity). cbn [bind].
  rewrite length_vec, Nat.eqb_refl. eexists. split; [reflexivity|].
  assert (Lf : length (firstn k l) = k) by (rewrite firstn_length; lia).
  split; [rewrite !app_length, length_vec, skipn_length, Lf; lia|]. split.
  - intros i Hi. rewrite nth_error_app2 by lia. rewrite nth_error_app1 by (rewrite length_vec; lia). rewrite Lf, nth_error_vec by lia.
    replace (k + (i - k))%nat with i by lia. reflexivity.
  - intros i [Hi|Hi].
    + rewrite nth_error_app1 by lia. apply nth_error_firstn. exact Hi.
    + rewrite nth_error_app2 by lia. rewrite nth_error_app2 by (rewrite length_vec; lia). rewrite length_vec, Lf, nth_error_skipn. f_equal. lia.
Qed.

(** ** The objective function *)
Lemma vec_S f k n : vec f k (S n) = Fin (f k) :: vec f (k + 1) n.
Proof.
  unfold vec. cbn [seq map]. rewrite Nat.add_0_r. f_equal. rewrite <- seq_shift, map_map. apply map_ext. intros i. do 2 f_equal. lia.
Qed.

Lemma wdist_ext w ss ts s' t' s2 t2 n : forall k, (forall i, (k <= i < k + n)%nat -> s' i = s2 i /\ t' i = t2 i) ->
  wdist w ss ts s' t' k n = wdist w ss ts s2 t2 k n.
Proof.
  induction n as [|n IH]; intros k H; [reflexivity|]. cbn [wdist]. destruct (H k ltac:(lia)) as [-> ->].
  rewrite (IH (k + 1)%nat) by (intros; apply H; lia). reflexivity.
Qed.

Lemma objective_sum w ss ts f g n : forall k a,
  fold_left add (map (fun d => add (mul (mul (Fin w) (fst d)) (fst d)) (mul (snd d) (snd d))) (combine (vec f k n) (vec g k n))) (Fin a)
  = Fin (a + wdist w ss ts (fun i => ss i + f i) (fun i => ts i + g i) k n).
Proof.
  induction n as [|n IH]; intros k a; [simpl; f_equal; lra|]. rewrite !vec_S. cbn [combine map fold_left wdist fst snd].
  change (add (Fin a) (add (mul (mul (Fin w) (Fin (f k))) (Fin (f k))) (mul (Fin (g k)) (Fin (g k))))) with (Fin (a + (w * f k * f k + g k * g k))).
  rewrite IH. f_equal. ring.
Qed.

Lemma objective_wdist w ss ts xs k n : length xs = (2 * n)%nat ->
  objective (Fin w) (map Fin xs) = Fin (wdist w ss ts (fun i => ss i + dS xs k i) (fun i => ts i + dT xs k n i) k n).
Proof.
  intros L. unfold objective. rewrite map_length, L. replace (Nat.div (2 * n) 2) with n by (rewrite Nat.mul_comm, Nat.div_mul; lia).
  destruct (split_vec xs k n L) as [-> ->]. cbn [lit xrNum]. rewrite Rlit_0. etransitivity; [apply (objective_sum w ss ts)|]. f_equal. ring.
Qed.

(** the perturbation leading to given values *)
Definition towards (ss ts s2 t2 : nat -> R) (k n : nat) : list R :=
  map (fun i => s2 (k + i)%nat - ss (k + i)%nat) (seq 0 n) ++ map (fun i => t2 (k + i)%nat - ts (k + i)%nat) (seq 0 n).

Lemma towards_spec ss ts s2 t2 k n : length (towards ss ts s2 t2 k n) = (2 * n)%nat
  /\ forall i, (k <= i < k + n)%nat -> ss i + dS (towards ss ts s2 t2 k n) k i = s2 i /\ ts i + dT (towards ss ts s2 t2 k n) k n i = t2 i.
Proof.
  unfold towards. split; [rewrite app_length, !map_length, seq_length; lia|]. intros i Hi.
  assert (E : forall f : nat -> R, nth (i - k) (map (fun i => f (k + i)%nat) (seq 0 n)) 0 = f i).
  { intros f. apply nth_error_nth_iff. rewrite nth_error_map, (nth_error_nth' _ 0%nat) by (rewrite seq_length; lia). rewrite seq_nth by lia.
    cbn [option_map]. do 2 f_equal. lia. }
  unfold dS, dT. split.
  - rewrite app_nth1 by (rewrite map_length, seq_length; lia). rewrite (E (fun i => s2 i - ss i)). ring.
  - rewrite app_nth2 by (rewrite map_length, seq_length; lia). rewrite map_length, seq_length.
    replace (n + (i - k) - n)%nat with (i - k)%nat by lia. rewrite (E (fun i => t2 i - ts i)). ring.
Qed.

Lemma lrpd_ext rho ss ts s2 t2 ps i : ss i = s2 i -> ts i = t2 i -> ss (i + 1)%nat = s2 (i + 1)%nat -> ts (i + 1)%nat = t2 (i + 1)%nat ->
  lrpd_grad rho ss ts ps i = lrpd_grad rho s2 t2 ps i.
Proof. intros A B C D. unfold lrpd_grad. rewrite A, B, C, D. reflexivity. Qed.

Section One.
  Variable minimize : (xr -> list xr -> xr) -> list xr -> xr -> (xr -> list xr -> list xr) -> (list xr -> res (list xr)) -> res (bool * list xr).
  Variables (eps : R) (eos : xr -> xr -> xr -> res xr) (rho : R -> R -> R -> R) (w : xr) (x0 md : list xr) (m : nat -> R).
  Hypothesis He : eos_real eos rho.

  Lemma keeps_length S T P S' T' : length T = length S -> stabilize_1 minimize eos w x0 md (S, T, P) = Ok (S', T') ->
    length S' = length S /\ length T' = length S.
  Proof.
    intros LT. unfold stabilize_1. destruct (valid_range_1_spec S) as (k & K & -> & H1 & _). cbn [bind].
    destruct (Nat.ltb 1 _); [|intros E; injection E as <- <-; auto].
    destruct (calc_dLRPDdp_fd_1 _ _ _ _) as [d|]; [|discriminate]. cbn [bind].
    destruct (np_any_lt _ _) as [[]|]; [|intros E; injection E as <- <-; auto|discriminate]. cbn [bind].
    destruct (minimize _ _ _ _ _) as [[b x]|]; [|discriminate]. cbn [bind fst snd].
    destruct b; [|discriminate].
    destruct (add_slice S _ _ _) as [s'|] eqn:E1; [|discriminate]. cbn [bind].
    destruct (add_slice T _ _ _) as [t'|] eqn:E2; [|discriminate]. cbn [bind].
    intros E; injection E as <- <-. rewrite (length_add_slice _ _ _ _ _ H1 E1), (length_add_slice T k K _ _ ltac:(lia) E2). auto.
  Qed.

  Lemma missing_step S T P : all_missing S -> stabilize_1 minimize eos w x0 md (S, T, P) = Ok (S, T).
  Proof. intros H. destruct (missing_range S H) as (k & K & E & Es). unfold stabilize_1. rewrite E. cbn [bind]. rewrite Es. reflexivity. Qed.

  Variables (S T P : list xr) (k K : nat) (ss ts ps : nat -> R).
  Hypothesis Hp : profile S T P k K ss ts ps.
  Hypothesis Hmd : (length S - 1 <= length md)%nat.
  Hypothesis Hm : forall i, (i < length S - 1)%nat -> nth_error md i = Some (Fin (m i)).
  Hypothesis Hx0 : length x0 = (2 * length S)%nat.

  (** what is passed to the optimiser *)
  Definition con := perturb_dLRPDdp_fd_1 (vec ss k (K - k)) (vec ts k (K - k)) (vec ps k (K - k)) (vec m k (K - k - 1)) eos.
  Definition call := minimize objective (firstn (2 * (K - k)) x0) w jac con.

  Lemma inc : increasing_on ps k (K - k).
  Proof using Hp. clear Hmd Hx0 Hm. intros i H1 H2. apply (pr_inc _ _ _ _ _ _ _ _ Hp); lia. Qed.

  Lemma step :
    (stable rho m k K ss ts ps -> stabilize_1 minimize eos w x0 md (S, T, P) = Ok (S, T))
    /\ (~ stable rho m k K ss ts ps ->
          (forall e, call = Err e -> stabilize_1 minimize eos w x0 md (S, T, P) = Err e)
          /\ (forall x, call = Ok (false, x) -> stabilize_1 minimize eos w x0 md (S, T, P) = Err RuntimeError)
          /\ (forall xs, call = Ok (true, map Fin xs) -> length xs = (2 * (K - k))%nat ->
               exists S' T', stabilize_1 minimize eos w x0 md (S, T, P) = Ok (S', T')
                 /\ profile S' T' P k K (fun i => ss i + dS xs k i) (fun i => ts i + dT xs k (K - k) i) ps
                 /\ length S' = length S
                 /\ forall i, (i < k \/ K <= i)%nat -> nth_error S' i = nth_error S i /\ nth_error T' i = nth_error T i)).
  Proof.
    pose proof Hp as [LT LP HK HS HT HP Hinc Hpre Hpost].
    assert (E1 : slice S k K = vec ss k (K - k)) by (apply slice_vec; [lia|assumption]).
    assert (E2 : slice T k K = vec ts k (K - k)) by (apply slice_vec; [lia|assumption]).
    assert (E3 : slice P k K = vec ps k (K - k)) by (apply slice_vec; [lia|assumption]).
    assert (E4 : slice md k (K - 1) = vec m k (K - k - 1)).
    { replace (K - k - 1)%nat with (K - 1 - k)%nat by lia. destruct (Nat.eq_dec K (k + 1)) as [->|].
      - replace (k + 1 - 1)%nat with k by lia. unfold slice. rewrite Nat.sub_diag. reflexivity.
      - apply slice_vec; [lia|]. intros i Hi. apply Hm. lia. }
    unfold stabilize_1. rewrite (profile_range _ _ _ _ _ _ _ _ Hp). cbn [bind]. rewrite E1, E2, E3, E4, length_vec.
    destruct (any_lt_vec (lrpd_grad rho ss ts ps) m k (K - k - 1)) as (b & Eb & Hb).
    assert (Hst : stable rho m k K ss ts ps <-> b = false).
    { split.
      - intros Hs. destruct b; [|reflexivity]. destruct (proj1 Hb eq_refl) as (i & Hi & Hlt). specialize (Hs i ltac:(lia) ltac:(lia)). lra.
      - intros -> i H1 H2. apply Rnot_lt_le. intros C. discriminate (proj2 Hb). exists i. split; [lia|exact C]. }
    assert (Hdec : Nat.ltb 1 (K - k) = false -> b = false).
    { intros C. apply Nat.ltb_ge in C. destruct b; [|reflexivity]. destruct (proj1 Hb eq_refl) as (i & Hi & _). lia. }
    rewrite (calc_vec eos rho ss ts ps k (K - k) He inc). cbn [bind]. rewrite Eb. cbn [bind]. fold con. fold call. split.
    - intros Hs. apply Hst in Hs. rewrite Hs. destruct (Nat.ltb 1 (K - k)); reflexivity.
    - intros Hs. assert (b = true) as -> by (destruct b; [reflexivity|exfalso; apply Hs; apply Hst; reflexivity]).
      destruct (Nat.ltb 1 (K - k)) eqn:Hl; [|discriminate (Hdec eq_refl)]. split; [|split].
      + intros e ->. reflexivity.
      + intros x ->. reflexivity.
      + intros xs -> L. cbn [bind fst snd]. destruct (split_vec xs k (K - k) L) as [-> ->].
        destruct (add_slice_vec S ss (dS xs k) k K ltac:(lia) E1) as (S' & A1 & A2 & A3 & A4).
        destruct (add_slice_vec T ts (dT xs k (K - k)) k K ltac:(lia) E2) as (T' & B1 & B2 & B3 & B4).
        rewrite A1, B1. cbn [bind]. exists S', T'. split; [reflexivity|]. split; [|split; [exact A2|auto]].
        constructor; try assumption; try lia.
        * intros i Hi. rewrite A4 by (left; exact Hi). auto.
        * intros Hi. rewrite A4 by (right; lia). apply Hpost. lia.
  Qed.

  Lemma step_stabilized S' T' wr : w = Fin wr -> feasible eps minimize -> stabilize_1 minimize eos w x0 md (S, T, P) = Ok (S', T') ->
    (stable rho m k K ss ts ps -> S' = S /\ T' = T)
    /\ (~ stable rho m k K ss ts ps -> exists ss' ts', profile S' T' P k K ss' ts' ps /\ stable rho (fun i => m i - eps) k K ss' ts' ps
          /\ (optimal minimize -> forall ss2 ts2, stable rho m k K ss2 ts2 ps -> wdist wr ss ts ss' ts' k (K - k) <= wdist wr ss ts ss2 ts2 k (K - k))
          /\ length S' = length S
          /\ forall i, (i < k \/ K <= i)%nat -> nth_error S' i = nth_error S i /\ nth_error T' i = nth_error T i).
  Proof.
    intros Ew Hf E. destruct step as [A B]. split.
    - intros Hs. rewrite (A Hs) in E. injection E as <- <-. auto.
    - intros Hs. destruct (B Hs) as (B1 & B2 & B3). destruct call as [[[] x]|e] eqn:Ec.
      2:{ rewrite (B2 x eq_refl) in E. discriminate. }
      2:{ rewrite (B1 e eq_refl) in E. discriminate. }
      destruct (Hf _ _ _ _ _ _ Ec) as (L & (xs & ->) & (g & Eg & Hg)).
      pose proof (pr_kK _ _ _ _ _ _ _ _ Hp) as HK.
      rewrite map_length, firstn_length, Hx0 in L. assert (L' : length xs = (2 * (K - k))%nat) by lia.
      destruct (B3 xs eq_refl L') as (S'' & T'' & E' & Pr & LS & Out). rewrite E' in E. injection E as <- <-.
      exists (fun i => ss i + dS xs k i), (fun i => ts i + dT xs k (K - k) i). split; [exact Pr|]. split; [|split; [|auto]].
      2:{ intros Hopt s2 t2 Hst2. destruct (towards_spec ss ts s2 t2 k (K - k)) as [Ly Hy]. set (ys := towards ss ts s2 t2 k (K - k)) in *.
        unfold call in Ec. rewrite Ew in Ec.
        eapply (Hopt _ _ _ _ _ _ Ec ys).
        - rewrite firstn_length, Hx0. lia.
        - unfold con. apply (perturb_vec eos rho ss ts ps m k (K - k) ys He inc Ly).
        - intros y Hin. apply in_vec in Hin. destruct Hin as (i & Hi & ->). eexists. split; [reflexivity|].
          rewrite (lrpd_ext rho _ _ s2 t2 ps (k + i)%nat) by (apply Hy; lia). specialize (Hst2 (k + i)%nat ltac:(lia) ltac:(lia)). lra.
        - apply objective_wdist. exact L'.
        - rewrite (objective_wdist wr ss ts ys k (K - k) Ly). f_equal. apply wdist_ext. intros i Hi. apply Hy. exact Hi. }
      unfold con in Eg. rewrite (perturb_vec eos rho ss ts ps m k (K - k) xs He inc L') in Eg. injection Eg as <-.
      intros i H1 H2. destruct (Hg (Fin (lrpd_grad rho (fun i => ss i + dS xs k i) (fun i => ts i + dT xs k (K - k) i) ps i - m i))) as (r & Er & Hr).
      { apply in_vec. exists (i - k)%nat. replace (k + (i - k))%nat with i by lia. split; [lia|reflexivity]. }
      injection Er as <-. lra.
  Qed.
End One.
