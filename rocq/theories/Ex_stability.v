(** * Static stability: concrete cases *)
From Coq Require Import String ZArith Bool Reals Lra Lia List ClassicalDescription.
From Verif Require Import Num XR SF Res Arr ArrLemmas Nd NdLemmas XRlemmas M_lib M_ppinterp S_lib P_casts M_mixed_layer S_traj S_mixed_layer
  P_mixed_layer P_mixed_layer2 M_stability S_stability P_stability P_stability2 P_stability3 P_stability4.
Import ListNotations.

(** an optimiser that proposes one candidate and checks the constraints itself *)
Definition guarded {F} {N : Num F} (cand : list F -> list F) :
  (F -> list F -> F) -> list F -> F -> (F -> list F -> list F) -> (list F -> res (list F)) -> res (bool * list F) :=
  fun f x0 w j con => let! g := con (cand x0) in Ok (forallb (fun y => leb (lit 0 0) y && isfinite y) g, cand x0).

Lemma guarded_feasible (cand : list xr -> list xr) :
  (forall x0, length (cand x0) = length x0 /\ exists xs, cand x0 = map Fin xs) -> feasible 0 (guarded cand).
Proof.
  intros H f x0 w j con x E. unfold guarded in E. destruct (con (cand x0)) as [g|] eqn:Eg; [|discriminate]. cbn [bind] in E.
  injection E as Ef <-. destruct (H x0) as [L X]. split; [exact L|]. split; [exact X|]. exists g. split; [exact Eg|].
  intros y Hy. rewrite forallb_forall in Ef. specialize (Ef y Hy). apply andb_true_iff in Ef. destruct Ef as [E1 E2].
  destruct y as [r| | |]; try discriminate. exists r. split; [reflexivity|]. cbn [leb lit xrNum xr_leb] in E1. rewrite Rlit_0 in E1.
  destruct (Rleb_spec 0 r); [lra|discriminate].
Qed.

(** density: salinity minus temperature plus pressure *)
Definition lin_eos {F} {N : Num F} (s t p : F) : res F := Ok (add (sub s t) p).
Definition lin_rho (s t p : R) : R := (s - t + p)%R.
Lemma lin_sea : sea_eos lin_eos lin_rho.
Proof.
  split; [intros s t p; reflexivity|]. intros s t p H. unfold lin_eos. f_equal.
  destruct s, t, p; try reflexivity; destruct H as [H|[H|H]]; discriminate.
Qed.

(** two casts with three levels; the first has a sea floor and is unstable *)
Definition sx : @data xr := mk_data (mk_nd [2; 3] [Fin 1; Fin 0; NaN; Fin 1; Fin 2; Fin 3]) None [].
Definition tx : @data xr := mk_data (mk_nd [2; 3] [Fin 0; Fin 0; NaN; Fin 0; Fin 0; Fin 0]) None [].
Definition px : @data xr := mk_data (mk_nd [3] [Fin 0; Fin 10; Fin 20]) None [].
Definition tenth (i : nat) : R := (/ 10)%R.

Definition cand (x0 : list xr) : list xr := if Nat.eqb (length x0) 4 then [Fin (-1); Fin 1; Fin 0; Fin 0] else map (fun _ => Fin 0) x0.
Lemma cand_fin x0 : length (cand x0) = length x0 /\ exists xs, cand x0 = map Fin xs.
Proof.
  unfold cand. destruct (Nat.eqb_spec (length x0) 4) as [E|E].
  - split; [simpl; congruence|]. exists [(-1)%R; 1%R; 0%R; 0%R]. reflexivity.
  - split; [apply map_length|]. exists (map (fun _ => 0%R) x0). rewrite map_map. reflexivity.
Qed.

Definition lvl (l : list R) (i : nat) : R := nth i l 0%R.
Ltac three := let i := fresh "i" in intro i; intros; do 3 (destruct i as [|i]; [first [reflexivity|unfold lvl, tenth; cbn [nth Nat.add]; lra|cbn in *; lia]|]); cbn in *; lia.

Lemma prof1 : profile [Fin 1; Fin 0; NaN] [Fin 0; Fin 0; NaN] [Fin 0; Fin 10; Fin 20] 0 2 (lvl [1; 0]%R) (lvl [0; 0]%R) (lvl [0; 10]%R).
Proof. constructor; try reflexivity; try (cbn; lia); try three. Qed.
Lemma prof2 : profile [Fin 1; Fin 2; Fin 3] [Fin 0; Fin 0; Fin 0] [Fin 0; Fin 10; Fin 20] 0 3 (lvl [1; 2; 3]%R) (lvl [0; 0; 0]%R) (lvl [0; 10; 20]%R).
Proof. constructor; try reflexivity; try (cbn; lia); try three. Qed.

Lemma unstable1 : ~ stable lin_rho tenth 0 2 (lvl [1; 0]%R) (lvl [0; 0]%R) (lvl [0; 10]%R).
Proof. intros H. specialize (H 0 ltac:(lia) ltac:(lia)). unfold lrpd_grad, lin_rho, lvl, tenth in H. cbn [nth Nat.add] in H. lra. Qed.
Lemma stable2 : stable lin_rho tenth 0 3 (lvl [1; 2; 3]%R) (lvl [0; 0; 0]%R) (lvl [0; 10; 20]%R).
Proof. intros i _ Hi. do 2 (destruct i as [|i]; [unfold lrpd_grad, lin_rho, lvl, tenth; cbn [nth Nat.add]; lra|]). lia. Qed.

Lemma three_levels (x : list nat -> option xr) h l a b c : cast_at x 3 [h] [] l -> x [h; 0] = Some a -> x [h; 1] = Some b -> x [h; 2] = Some c -> l = [a; b; c].
Proof.
  intros [L H] A B C. apply nth_error_ext. intros [|[|[|i]]]; [rewrite H by lia; exact A|rewrite H by lia; exact B|rewrite H by lia; exact C|].
  rewrite (proj2 (nth_error_None l _)) by lia. destruct i; reflexivity.
Qed.

Lemma any_xp h1 h2 s t p : valid [2] h1 -> valid [] h2 ->
  cast_at (at_ (arr sx)) 3 h1 h2 s -> cast_at (at_ (arr tx)) 3 h1 h2 t -> cast_at (Px sx px [2]) 3 h1 h2 p -> any_profile s t p /\ no_gap s.
Proof.
  intros H1 H2 A B C. inversion H2; subst. inversion H1 as [|? h ? r Hh Hr]; subst. inversion Hr; subst.
  destruct h as [|[|h]]; [| |lia].
  - rewrite (three_levels _ _ _ (Fin 1) (Fin 0) NaN A eq_refl eq_refl eq_refl), (three_levels _ _ _ (Fin 0) (Fin 0) NaN B eq_refl eq_refl eq_refl),
      (three_levels _ _ _ (Fin 0) (Fin 10) (Fin 20) C eq_refl eq_refl eq_refl).
    split; [right; do 5 eexists; exact prof1|]. intros i j l x y z [Hi Hj] E1 E2 E3 _ Hy. pose proof (nth_error_lt _ _ _ E2) as Hlt. cbn in Hlt.
    assert (j = 2) as -> by lia. cbn in E2. congruence.
  - rewrite (three_levels _ _ _ (Fin 1) (Fin 2) (Fin 3) A eq_refl eq_refl eq_refl), (three_levels _ _ _ (Fin 0) (Fin 0) (Fin 0) B eq_refl eq_refl eq_refl),
      (three_levels _ _ _ (Fin 0) (Fin 10) (Fin 20) C eq_refl eq_refl eq_refl).
    split; [right; do 5 eexists; exact prof2|]. intros i j l x y z [Hi Hj] E1 E2 E3 _ Hy. pose proof (nth_error_lt _ _ _ E2) as Hlt. cbn in Hlt.
    assert (l = 1) as -> by lia. cbn in E3. congruence.
Qed.

Lemma no_inf_lit (x : nd xr) : Forall not_inf (elems x) -> no_inf x.
Proof. intros H v Hv. rewrite Forall_forall in H. apply H. exact Hv. Qed.
Ltac noinf := apply no_inf_lit; repeat apply Forall_cons; try apply Forall_nil; first [left; reflexivity|right; eexists; reflexivity].

(** the same profile has the same numbers *)
Lemma profile_same S T P k K ss ts ps k' K' ss' ts' ps' : profile S T P k K ss ts ps -> profile S T P k' K' ss' ts' ps' ->
  k' = k /\ K' = K /\ forall i, k <= i < K -> ss' i = ss i /\ ts' i = ts i /\ ps' i = ps i.
Proof.
  intros H H'. pose proof (profile_range _ _ _ _ _ _ _ _ H) as R. rewrite (profile_range _ _ _ _ _ _ _ _ H') in R. injection R as -> ->.
  split; [reflexivity|]. split; [reflexivity|]. intros i Hi.
  pose proof (pr_S _ _ _ _ _ _ _ _ H i Hi) as A. pose proof (pr_T _ _ _ _ _ _ _ _ H i Hi) as B. pose proof (pr_P _ _ _ _ _ _ _ _ H i Hi) as C.
  rewrite (pr_S _ _ _ _ _ _ _ _ H' i Hi) in A. rewrite (pr_T _ _ _ _ _ _ _ _ H' i Hi) in B. rewrite (pr_P _ _ _ _ _ _ _ _ H' i Hi) in C.
  injection A. injection B. injection C. auto.
Qed.

Definition zeros (n : nat) : list xr := repeat (Fin 0) n.
Definition md10 : @scalar_or_array xr := Scalar (Fin (/ 10)).

(** the run succeeds, and changes the first cast only *)
Lemma run_ok : exists s' t', stabilize_ST (guarded cand) sx tx px lin_eos md10 (Fin 1) (VInt (-1)) zeros = Ok (s', t', None).
Proof.
  destruct (stabilize_whole (guarded cand) 0 lin_eos lin_rho (Fin 1) 1 md10 tenth zeros sx tx px (VInt (-1)) [2] [] 3)
    as (s' & t' & e & j & E & _ & _ & _ & _ & _ & Hfail & _); try reflexivity; try discriminate; try (right; reflexivity).
  - apply lin_sea.
  - intros i. reflexivity.
  - intros n. apply repeat_length.
  - apply guarded_feasible. exact cand_fin.
  - intros h1 h2 s t p H1 H2 A B C. apply (any_xp h1 h2 s t p H1 H2 A B C).
  - destruct e as [ex|]; [|exists s', t'; exact E]. exfalso.
    destruct (Hfail ex eq_refl) as (h1 & h2 & s & t & p & k & K & ss & ts & ps & H1 & H2 & _ & A & B & C & Hp & Hns & c & Hc & Hmin).
    inversion H2; subst. inversion H1 as [|? h ? r Hh Hr]; subst. inversion Hr; subst. destruct h as [|[|h]]; [| |lia].
    + rewrite (three_levels _ _ _ (Fin 1) (Fin 0) NaN A eq_refl eq_refl eq_refl), (three_levels _ _ _ (Fin 0) (Fin 0) NaN B eq_refl eq_refl eq_refl),
        (three_levels _ _ _ (Fin 0) (Fin 10) (Fin 20) C eq_refl eq_refl eq_refl) in Hp.
      destruct (profile_same _ _ _ _ _ _ _ _ _ _ _ _ _ prof1 Hp) as (-> & -> & Hsame).
      assert (G : exists y, guarded cand objective (firstn (2 * (2 - 0)) (zeros (2 * 3))) (Fin 1) jac c = Ok (true, y)).
      { unfold guarded. change (cand (firstn (2 * (2 - 0)) (zeros (2 * 3)))) with (map Fin [(-1)%R; 1%R; 0%R; 0%R]).
        rewrite (Hc [(-1)%R; 1%R; 0%R; 0%R] eq_refl). cbn [bind]. eexists. f_equal. f_equal. cbn [seq map forallb Nat.sub].
        match goal with |- context [Fin ?z] => assert (Z : (0 <= z)%R) end.
        { unfold lrpd_grad, lin_rho, tenth. cbn [nth Nat.sub Nat.add].
          destruct (Hsame 0 ltac:(lia)) as (-> & -> & ->). destruct (Hsame 1 ltac:(lia)) as (-> & -> & ->). unfold lvl. cbn [nth]. lra. }
        cbn [leb isfinite lit xrNum]. rewrite Rlit_0. unfold xr_leb. rewrite Rleb_true by exact Z. reflexivity. }
      destruct G as [y G]. destruct Hmin as [Hmin|(y' & Hmin & _)]; rewrite G in Hmin; discriminate.
    + rewrite (three_levels _ _ _ (Fin 1) (Fin 2) (Fin 3) A eq_refl eq_refl eq_refl), (three_levels _ _ _ (Fin 0) (Fin 0) (Fin 0) B eq_refl eq_refl eq_refl),
        (three_levels _ _ _ (Fin 0) (Fin 10) (Fin 20) C eq_refl eq_refl eq_refl) in Hp.
      destruct (profile_same _ _ _ _ _ _ _ _ _ _ _ _ _ prof2 Hp) as (-> & -> & Hsame). apply Hns. intros i Hi1 Hi2.
      rewrite (lrpd_ext lin_rho ss ts (lvl [1; 2; 3]%R) (lvl [0; 0; 0]%R) ps i) by (apply Hsame; lia).
      pose proof (stable2 i Hi1 Hi2) as H. unfold lrpd_grad in *.
      rewrite (proj2 (proj2 (Hsame i ltac:(lia)))), (proj2 (proj2 (Hsame (i + 1) ltac:(lia)))). exact H.
Qed.

(** an optimiser that returns a candidate when it is feasible and none is better *)
Definition ideal (cand : list xr -> list xr) :
  (xr -> list xr -> xr) -> list xr -> xr -> (xr -> list xr -> list xr) -> (list xr -> res (list xr)) -> res (bool * list xr) :=
  fun f x0 w j con =>
    let! g := guarded cand f x0 w j con in
    Ok (fst g && (if excluded_middle_informative (forall ys g a b, length ys = length x0 -> con (map Fin ys) = Ok g ->
          (forall y, In y g -> exists r, y = Fin r /\ (0 <= r)%R) -> f w (cand x0) = Fin a -> f w (map Fin ys) = Fin b -> (a <= b)%R) then true else false), snd g).

Lemma ideal_feasible c : (forall x0, length (c x0) = length x0 /\ exists xs, c x0 = map Fin xs) -> feasible 0 (ideal c) /\ optimal (ideal c).
Proof.
  intros H. split.
  - intros f x0 w j con x E. unfold ideal in E. destruct (guarded c f x0 w j con) as [[b y]|] eqn:Eg; [|discriminate]. cbn [bind fst snd] in E.
    injection E as Eb <-. apply andb_true_iff in Eb. destruct Eb as [-> _]. apply (guarded_feasible c H f x0 w j con y Eg).
  - intros f x0 w j con x E ys g a b L Ec Hg Ea Eb. unfold ideal in E. destruct (guarded c f x0 w j con) as [[b' y]|] eqn:Eg; [|discriminate]. cbn [bind fst snd] in E.
    assert (y = c x0) as ->.
    { unfold guarded in Eg. destruct (con (c x0)); [|discriminate]. cbn [bind] in Eg. injection Eg as _ <-. reflexivity. }
    destruct (excluded_middle_informative _) as [Hall|_] in E; [|rewrite andb_false_r in E; discriminate]. injection E as _ <-.
    eapply Hall; eassumption.
Qed.

(** ** The same in binary64 *)
Definition q (z : Z) : f64 := lit z 0.
Definition qt (z : Z) : f64 := lit z (-1).
Definition fcand (x0 : list f64) : list f64 := if Nat.eqb (length x0) 4 then [q (-1); q 1; q 0; q 0] else map (fun _ => q 0) x0.
Definition fzeros (n : nat) : list f64 := repeat (q 0) n.
Definition dat (sh : list nat) (l : list f64) : @data f64 := mk_data (mk_nd sh l) None [].
Definition fmin := guarded fcand.

(** both casts would have been treated: [run S P v] on two-level casts with zero temperature *)
Example f64_run : stabilize_ST fmin (dat [2; 3] [q 1; q 0; nan; q 1; q 2; q 3]) (dat [2; 3] [q 0; q 0; nan; q 0; q 0; q 0]) (dat [3] [q 0; q 10; q 20])
    lin_eos (Scalar (lit 1 (-2))) (q 10) (VInt (-1)) fzeros
  = Ok (mk_nd [2; 3] [q 0; q 1; nan; q 1; q 2; q 3], mk_nd [2; 3] [q 0; q 0; nan; q 0; q 0; q 0], None).
Proof. vm_compute. reflexivity. Qed.

(** vertical dimension first *)
Definition s_first : @data f64 := dat [2; 2] [q 1; q 1; q 0; q 2].
Definition t_first : @data f64 := dat [2; 2] [q 0; q 0; q 0; q 0].
Definition a_first : @ndarray f64 := mk_arr [q 1; q 1; q 0; q 2] 0 [2; 2] [2; 1]%Z true.
Definition p_two : @data f64 := dat [2] [q 0; q 10].

Lemma a_first_represents : represents a_first (arr s_first).
Proof.
  split; [reflexivity|]. split; [reflexivity|]. intros ix V. inversion V as [|? i ? j Hi Hj]; subst. inversion Hj as [|? k ? r Hk Hr]; subst. inversion Hr; subst.
  destruct i as [|[|i]]; [| |lia]; (destruct k as [|[|k]]; [vm_compute; reflexivity|vm_compute; reflexivity|lia]).
Qed.

Lemma lost : exists s' t', stabilize_ST fmin s_first t_first p_two lin_eos (Scalar (lit 1 (-2))) (q 10) (VInt 0) fzeros = Ok (s', t', None)
  /\ at_ s' [0; 0] = Some (q 0) /\ value a_first [0; 0] = Some (q 1) /\ after a_first 0 s' = a_first.
Proof.
  exists (mk_nd [2; 2] [q 0; q 1; q 1; q 2]), (mk_nd [2; 2] [q 0; q 0; q 0; q 0]).
  split; [vm_compute; reflexivity|]. split; [vm_compute; reflexivity|]. split; vm_compute; reflexivity.
Qed.

(** a gap in the cast: what is below it is never looked at *)
Lemma gap_left : exists s' t', stabilize_ST fmin (dat [5] [q 0; q 1; nan; q 3; q 2]) (dat [5] [q 0; q 0; nan; q 0; q 0]) (dat [5] [q 0; q 10; q 20; q 30; q 40])
    lin_eos (Scalar (lit 1 (-2))) (q 10) (VInt (-1)) fzeros = Ok (s', t', None)
  /\ count_unstable (mk_data s' None []) (mk_data t' None []) (dat [5] [q 0; q 10; q 20; q 30; q 40]) None (Some lin_eos) None (VInt (-1)) = Ok 1.
Proof. exists (mk_nd [5] [q 0; q 1; nan; q 3; q 2]), (mk_nd [5] [q 0; q 0; nan; q 0; q 0]). split; vm_compute; reflexivity. Qed.

(** threshold 0 accepts equal densities, which are counted as unstable *)
Lemma equal_left : exists s' t', stabilize_ST fmin (dat [2] [q 1; q 1]) (dat [2] [q 0; q 0]) p_two lin_eos (Scalar (q 0)) (q 10) (VInt (-1)) fzeros = Ok (s', t', None)
  /\ count_unstable (mk_data s' None []) (mk_data t' None []) p_two None (Some lin_eos) None (VInt (-1)) = Ok 1.
Proof. exists (mk_nd [2] [q 1; q 1]), (mk_nd [2] [q 0; q 0]). split; vm_compute; reflexivity. Qed.

Definition lin_eos_s_t (s t p : f64) : res (f64 * f64) := Ok (q 1, q (-1)).

(** linear interpolants: an unstable bottom pair is not counted, an unstable top pair twice *)
Lemma bottles : let P := dat [3] [q 0; q 10; q 20] in let T := dat [3] [q 0; q 0; q 0] in
  let S := dat [3] [q 0; q 1; q 0] in let S' := dat [3] [q 1; q 0; q 1] in
  count_unstable S T P (Some linear_interp_1_two) None (Some lin_eos_s_t) (VInt (-1)) = Ok 0
  /\ unstable_grad linear_interp_1_two lin_eos_s_t 2 ([q 0; q 1; q 0], [q 0; q 0; q 0], [q 0; q 10; q 20]) = Ok true
  /\ count_unstable S T P None (Some lin_eos) None (VInt (-1)) = Ok 1
  /\ count_unstable S' T P (Some linear_interp_1_two) None (Some lin_eos_s_t) (VInt (-1)) = Ok 2
  /\ count_unstable S' T P None (Some lin_eos) None (VInt (-1)) = Ok 1.
Proof. cbv zeta. split; [vm_compute; reflexivity|]. split; [vm_compute; reflexivity|]. split; [vm_compute; reflexivity|]. split; vm_compute; reflexivity. Qed.

(** the optimiser fails on the second cast: the first stays changed *)
Lemma half_done : exists s' t', stabilize_ST fmin (dat [2; 3] [q 1; q 0; nan; q 3; q 2; q 1]) (dat [2; 3] [q 0; q 0; nan; q 0; q 0; q 0]) (dat [3] [q 0; q 10; q 20])
    lin_eos (Scalar (lit 1 (-2))) (q 10) (VInt (-1)) fzeros = Ok (s', t', Some RuntimeError)
  /\ s' = mk_nd [2; 3] [q 0; q 1; nan; q 3; q 2; q 1].
Proof. exists (mk_nd [2; 3] [q 0; q 1; nan; q 3; q 2; q 1]), (mk_nd [2; 3] [q 0; q 0; nan; q 0; q 0; q 0]). split; vm_compute; reflexivity. Qed.
