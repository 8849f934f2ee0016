(** * Static stability in binary64: stabilising one cast *)
From Coq Require Import String ZArith Bool Reals Lra Lia List SpecFloat.
From Flocq Require Import Core.Raux.
From Verif Require Import Num XR SF Res Arr ArrLemmas Nd NdLemmas M_lib M_ppinterp P_ppinterp M_eostools M_stability S_lib S_eos S_float S_domain
  S_vertsolve S_vert64 S_stability S_stability64 P_float P_fl P_holds P_linear64 P_vert64 P_surf64 P_stability P_stability64.
From Verif Require P_stability2.
Import ListNotations.
Local Open Scope R_scope.

(** ** Any numbers *)
Section Generic.
  Context {F : Type} {N : Num F}.

  Lemma np_bin_ok (op : F -> F -> F) a b : length a = length b -> exists r, np_bin op a b = Ok r /\ length r = length a
    /\ forall i x y, nth_error a i = Some x -> nth_error b i = Some y -> nth_error r i = Some (op x y).
  Proof.
    intros L. unfold np_bin. rewrite (proj2 (Nat.eqb_eq _ _) L). eexists. split; [reflexivity|]. split.
    - rewrite map_length, combine_length. lia.
    - clear L. revert b. induction a as [|u a IH]; intros [|v b] [|i] x y Hx Hy; cbn in *; try discriminate; [congruence|]. exact (IH b i x y Hx Hy).
  Qed.
  Lemma np_bin_get (op : F -> F -> F) a b r i : np_bin op a b = Ok r -> length a = length b -> (i < length a)%nat ->
    exists x y, nth_error a i = Some x /\ nth_error b i = Some y /\ nth_error r i = Some (op x y).
  Proof.
    intros E L Hi. destruct (np_bin_ok op a b L) as (r' & E' & _ & H). assert (r' = r) by congruence. subst r'.
    destruct (nth_error a i) as [x|] eqn:Ea; [|apply nth_error_None in Ea; lia]. destruct (nth_error b i) as [y|] eqn:Eb; [|apply nth_error_None in Eb; lia].
    exists x, y. split; [reflexivity|]. split; [reflexivity|]. exact (H i x y Ea Eb).
  Qed.
  Lemma np_bin_length (op : F -> F -> F) a b r : np_bin op a b = Ok r -> length a = length b -> length r = length a.
  Proof. intros E L. destruct (np_bin_ok op a b L) as (r' & E' & H & _). congruence. Qed.

  Lemma eos_vec_ok eos (s t p : list F) : length t = length s -> length p = length s ->
    (forall i a b c, nth_error s i = Some a -> nth_error t i = Some b -> nth_error p i = Some c -> exists r, eos a b c = Ok r) ->
    exists r, eos_vec eos s t p = Ok r.
  Proof.
    intros L1 L2 H. unfold eos_vec. revert t p L1 L2 H. induction s as [|a s IH]; intros [|b t] [|c p] L1 L2 H; try discriminate; [eexists; reflexivity|].
    cbn [combine mapM fst snd]. destruct (H 0%nat a b c eq_refl eq_refl eq_refl) as (r & ->). cbn [bind].
    destruct (IH t p) as (l & ->); [cbn in L1; lia|cbn in L2; lia|intros i; exact (H (Datatypes.S i))|]. eexists. reflexivity.
  Qed.
  Lemma eos_vec_get eos (s t p r : list F) : eos_vec eos s t p = Ok r -> length t = length s -> length p = length s -> length r = length s
    /\ forall i a b c, nth_error s i = Some a -> nth_error t i = Some b -> nth_error p i = Some c -> exists y, eos a b c = Ok y /\ nth_error r i = Some y.
  Proof.
    unfold eos_vec. revert t p r. induction s as [|a s IH]; intros [|b t] [|c p] r E L1 L2; try discriminate.
    - cbn in E. injection E as <-. split; [reflexivity|]. intros [|i] a b c Ha; discriminate.
    - cbn [combine mapM fst snd] in E. destruct (eos a b c) as [y|] eqn:Ey; [|discriminate]. cbn [bind] in E.
      destruct (mapM _ (combine (combine s t) p)) as [l|] eqn:El; [|discriminate]. injection E as <-.
      destruct (IH t p l El) as [Hl H]; [cbn in L1; lia|cbn in L2; lia|]. split; [cbn; lia|].
      intros [|i] a' b' c' Ha Hb Hc; cbn in *; [injection Ha as <-; injection Hb as <-; injection Hc as <-; eauto|]. exact (H i a' b' c' Ha Hb Hc).
  Qed.

  Lemma nth_removelast {A} (l : list A) i : (i + 1 < length l)%nat -> nth_error (removelast l) i = nth_error l i.
  Proof.
    intros H. assert (E : l <> []) by (intros ->; cbn in H; lia). pose proof (app_removelast_last (A := A)) as R.
    destruct l as [|x l]; [contradiction|]. specialize (R (x :: l) x E). rewrite R at 2. symmetry. apply nth_error_app1.
    assert (L := f_equal (@length A) R). rewrite app_length in L. cbn [length] in L, H. lia.
  Qed.
  Lemma length_removelast {A} (l : list A) : length (removelast l) = (length l - 1)%nat.
  Proof.
    destruct l as [|x l]; [reflexivity|]. assert (R := f_equal (@length A) (app_removelast_last (l := x :: l) x ltac:(discriminate))).
    rewrite app_length in R. cbn [length] in R |- *. lia.
  Qed.
  Lemma nth_tl {A} (l : list A) i : nth_error (tl l) i = nth_error l (i + 1).
  Proof. destruct l as [|x l]; [destruct i; reflexivity|]. rewrite Nat.add_1_r. reflexivity. Qed.
  Lemma length_tl {A} (l : list A) : length (tl l) = (length l - 1)%nat.
  Proof. destruct l; cbn; lia. Qed.

  Definition mid (p q : F) : F := div (add p q) (lit 2 0).
  (** the gradient between two levels *)
  Definition grad (eos : F -> F -> F -> res F) (s t p s' t' p' g : F) : Prop :=
    exists r r', eos s t (mid p p') = Ok r /\ eos s' t' (mid p p') = Ok r' /\ g = div (sub r' r) (sub p' p).

  Definition grads (s t p : list F) (eos : F -> F -> F -> res F) (g : list F) : Prop :=
    length g = (length s - 1)%nat /\ forall i a b c a' b' c', nth_error s i = Some a -> nth_error t i = Some b -> nth_error p i = Some c ->
      nth_error s (i + 1) = Some a' -> nth_error t (i + 1) = Some b' -> nth_error p (i + 1) = Some c' ->
      exists x, nth_error g i = Some x /\ grad eos a b c a' b' c' x.

  Definition common (s t p : list F) (eos : F -> F -> F -> res F) : res (list F) :=
    let! q := np_bin add (removelast p) (tl p) in
    let p_avg := map (fun x => div x (lit 2 0)) q in
    let! r1 := eos_vec eos (removelast s) (removelast t) p_avg in
    let! r2 := eos_vec eos (tl s) (tl t) p_avg in
    let! ds := np_bin sub r2 r1 in
    let! dp := np_bin sub (tl p) (removelast p) in
    np_bin div ds dp.

  Lemma common_grads s t p eos g : length t = length s -> length p = length s -> common s t p eos = Ok g -> grads s t p eos g.
  Proof.
    intros Lt Lp E. unfold common in E. cbv zeta in E.
    destruct (np_bin add (removelast p) (tl p)) as [q|] eqn:Eq; [|discriminate]. cbn [bind] in E.
    assert (Lq : length q = (length s - 1)%nat) by (rewrite (np_bin_length _ _ _ _ Eq); rewrite ?length_removelast, ?length_tl; lia).
    destruct (eos_vec eos (removelast s) _ _) as [r1|] eqn:E1; [|discriminate]. cbn [bind] in E.
    destruct (eos_vec eos (tl s) _ _) as [r2|] eqn:E2; [|discriminate]. cbn [bind] in E.
    destruct (eos_vec_get _ _ _ _ _ E1) as [L1 H1]; [rewrite !length_removelast; lia|rewrite map_length, length_removelast; lia|].
    destruct (eos_vec_get _ _ _ _ _ E2) as [L2 H2]; [rewrite !length_tl; lia|rewrite map_length, length_tl; lia|].
    rewrite length_removelast in L1. rewrite length_tl in L2.
    destruct (np_bin sub r2 r1) as [ds|] eqn:Ed; [|discriminate]. cbn [bind] in E. pose proof (np_bin_length _ _ _ _ Ed ltac:(lia)) as Ld.
    destruct (np_bin sub (tl p) (removelast p)) as [dp|] eqn:Ee; [|discriminate]. cbn [bind] in E.
    assert (Le : length dp = (length s - 1)%nat) by (rewrite (np_bin_length _ _ _ _ Ee); rewrite ?length_removelast, ?length_tl; lia).
    split; [rewrite (np_bin_length _ _ _ _ E); lia|].
    intros i a b c a' b' c' Ha Hb Hc Ha' Hb' Hc'. assert (Hi : (i + 1 < length s)%nat) by (apply nth_error_Some; congruence).
    assert (Q : nth_error q i = Some (add c c')).
    { destruct (np_bin_ok add (removelast p) (tl p)) as (q' & Eq' & _ & Hq); [rewrite length_removelast, length_tl; reflexivity|].
      assert (q' = q) by congruence. subst q'. apply Hq; [rewrite nth_removelast by lia; exact Hc|rewrite nth_tl; exact Hc']. }
    assert (M : nth_error (map (fun x => div x (lit 2 0)) q) i = Some (mid c c')) by (rewrite nth_error_map, Q; reflexivity).
    destruct (H1 i a b (mid c c')) as (y1 & Y1 & G1); [rewrite nth_removelast by lia; exact Ha|rewrite nth_removelast by lia; exact Hb|exact M|].
    destruct (H2 i a' b' (mid c c')) as (y2 & Y2 & G2); [rewrite nth_tl; exact Ha'|rewrite nth_tl; exact Hb'|exact M|].
    destruct (np_bin_ok sub r2 r1 ltac:(lia)) as (ds' & Ed' & _ & Hds). assert (ds' = ds) by congruence. subst ds'. specialize (Hds i _ _ G2 G1).
    destruct (np_bin_ok sub (tl p) (removelast p)) as (dp' & Ee' & _ & Hdp); [rewrite length_removelast, length_tl; reflexivity|].
    assert (dp' = dp) by congruence. subst dp'. specialize (Hdp i c' c). rewrite nth_tl, nth_removelast in Hdp by lia. specialize (Hdp Hc' Hc).
    destruct (np_bin_ok div ds dp ltac:(lia)) as (g' & Eg' & _ & Hg). assert (g' = g) by congruence. subst g'. specialize (Hg i _ _ Hds Hdp).
    exists (div (sub y2 y1) (sub c' c)). split; [exact Hg|]. exists y1, y2. auto.
  Qed.

  Lemma common_ok s t p eos : length t = length s -> length p = length s ->
    (forall i a b c a' b' c', nth_error s i = Some a -> nth_error t i = Some b -> nth_error p i = Some c ->
      nth_error s (i + 1) = Some a' -> nth_error t (i + 1) = Some b' -> nth_error p (i + 1) = Some c' ->
      exists r r', eos a b (mid c c') = Ok r /\ eos a' b' (mid c c') = Ok r') ->
    exists g, common s t p eos = Ok g.
  Proof.
    intros Lt Lp H. unfold common. cbv zeta.
    destruct (np_bin_ok add (removelast p) (tl p)) as (q & Eq & Lq & Hq); [rewrite length_removelast, length_tl; reflexivity|]. rewrite Eq. cbn [bind].
    rewrite length_removelast in Lq.
    assert (Hall : forall i, (i + 1 < length s)%nat -> exists a b c a' b' c', nth_error s i = Some a /\ nth_error t i = Some b /\ nth_error p i = Some c
      /\ nth_error s (i + 1) = Some a' /\ nth_error t (i + 1) = Some b' /\ nth_error p (i + 1) = Some c'
      /\ nth_error (map (fun x => div x (lit 2 0)) q) i = Some (mid c c')).
    { intros i Hi.
      destruct (nth_error s i) as [a|] eqn:Ha; [|apply nth_error_None in Ha; lia]. destruct (nth_error t i) as [b|] eqn:Hb; [|apply nth_error_None in Hb; lia].
      destruct (nth_error p i) as [c|] eqn:Hc; [|apply nth_error_None in Hc; lia]. destruct (nth_error s (i + 1)) as [a'|] eqn:Ha'; [|apply nth_error_None in Ha'; lia].
      destruct (nth_error t (i + 1)) as [b'|] eqn:Hb'; [|apply nth_error_None in Hb'; lia]. destruct (nth_error p (i + 1)) as [c'|] eqn:Hc'; [|apply nth_error_None in Hc'; lia].
      exists a, b, c, a', b', c'. do 6 (split; [reflexivity|]). rewrite nth_error_map, (Hq i c c'); [reflexivity|rewrite nth_removelast by lia; exact Hc|rewrite nth_tl; exact Hc']. }
    destruct (eos_vec_ok eos (removelast s) (removelast t) (map (fun x => div x (lit 2 0)) q)) as (r1 & E1); [rewrite !length_removelast; lia|rewrite map_length, length_removelast; lia| |].
    { intros i a b c Ha Hb Hc. assert (Hi : (i < length (removelast s))%nat) by (apply nth_error_Some; congruence). rewrite length_removelast in Hi.
      rewrite nth_removelast in Ha, Hb by lia. destruct (Hall i ltac:(lia)) as (x & y & z & x' & y' & z' & X & Y & Z & X' & Y' & Z' & M).
      destruct (H i _ _ _ _ _ _ X Y Z X' Y' Z') as (r & r' & R & R'). exists r. rewrite <- R. f_equal; congruence. }
    rewrite E1. cbn [bind].
    destruct (eos_vec_ok eos (tl s) (tl t) (map (fun x => div x (lit 2 0)) q)) as (r2 & E2); [rewrite !length_tl; lia|rewrite map_length, length_tl; lia| |].
    { intros i a b c Ha Hb Hc. assert (Hi : (i < length (tl s))%nat) by (apply nth_error_Some; congruence). rewrite length_tl in Hi.
      rewrite nth_tl in Ha, Hb. destruct (Hall i ltac:(lia)) as (x & y & z & x' & y' & z' & X & Y & Z & X' & Y' & Z' & M).
      destruct (H i _ _ _ _ _ _ X Y Z X' Y' Z') as (r & r' & R & R'). exists r'. rewrite <- R'. f_equal; congruence. }
    rewrite E2. cbn [bind].
    destruct (eos_vec_get _ _ _ _ _ E1) as [L1 _]; [rewrite !length_removelast; lia|rewrite map_length, length_removelast; lia|].
    destruct (eos_vec_get _ _ _ _ _ E2) as [L2 _]; [rewrite !length_tl; lia|rewrite map_length, length_tl; lia|].
    rewrite length_removelast in L1. rewrite length_tl in L2.
    destruct (np_bin_ok sub r2 r1 ltac:(lia)) as (ds & -> & Ld & _). cbn [bind].
    destruct (np_bin_ok sub (tl p) (removelast p)) as (dp & -> & Le & _); [rewrite length_removelast, length_tl; reflexivity|]. cbn [bind].
    rewrite length_tl in Le. destruct (np_bin_ok div ds dp ltac:(lia)) as (g & -> & _). exists g. reflexivity.
  Qed.

  Lemma calc_common s t p eos : calc_dLRPDdp_fd_1 s t p eos = common s t p eos.
  Proof. reflexivity. Qed.

  (** the constraints, where they could be computed *)
  Lemma perturb_grads s t p m eos dx g n : length s = n -> length t = n -> length p = n -> length m = (n - 1)%nat -> length dx = (2 * n)%nat ->
    perturb_dLRPDdp_fd_1 s t p m eos dx = Ok g ->
    exists s' t' l, np_bin add s (firstn n dx) = Ok s' /\ np_bin add t (skipn n dx) = Ok t' /\ length s' = n /\ length t' = n
      /\ grads s' t' p eos l /\ forall i x y, nth_error l i = Some x -> nth_error m i = Some y -> nth_error g i = Some (sub x y).
  Proof.
    intros Ls Lt Lp Lm Ld E. unfold perturb_dLRPDdp_fd_1 in E. rewrite Ld in E.
    replace (Nat.div (2 * n) 2) with n in E by (rewrite Nat.mul_comm, Nat.div_mul; lia). cbv zeta in E.
    destruct (np_bin_ok add s (firstn n dx)) as (s' & Es & Ls' & _); [rewrite firstn_length; lia|]. rewrite Es in E. cbn [bind] in E.
    destruct (np_bin_ok add t (skipn n dx)) as (t' & Et & Lt' & _); [rewrite skipn_length; lia|]. rewrite Et in E. cbn [bind] in E.
    assert (C : exists l, common s' t' p eos = Ok l /\ np_bin sub l m = Ok g).
    { unfold common. cbv zeta.
      destruct (np_bin add (removelast p) (tl p)) as [q|]; [|discriminate]. cbn [bind] in *.
      destruct (eos_vec eos (removelast s') _ _) as [r1|]; [|discriminate]. cbn [bind] in *.
      destruct (eos_vec eos (tl s') _ _) as [r2|]; [|discriminate]. cbn [bind] in *.
      destruct (np_bin sub r2 r1) as [ds|]; [|discriminate]. cbn [bind] in *.
      destruct (np_bin sub (tl p) _) as [dp|]; [|discriminate]. cbn [bind] in *.
      destruct (np_bin div ds dp) as [l|]; [|discriminate]. cbn [bind] in *. exists l. auto. }
    destruct C as (l & El & Eg). exists s', t', l. split; [exact Es|]. split; [exact Et|]. split; [lia|]. split; [lia|].
    pose proof (common_grads s' t' p eos l ltac:(lia) ltac:(lia) El) as G. split; [exact G|]. destruct G as [Ll _].
    destruct (np_bin_ok sub l m ltac:(lia)) as (g' & Eg' & _ & Hg). assert (g' = g) by congruence. subst g'. exact Hg.
  Qed.

  Lemma add_slice_ok (l : list F) k K d m : (k <= K <= length l)%nat -> length m = (K - k)%nat -> np_bin add (slice l k K) d = Ok m ->
    exists l', add_slice l k K d = Ok l' /\ length l' = length l
    /\ (forall i, (k <= i < K)%nat -> nth_error l' i = nth_error m (i - k))
    /\ (forall i, (i < k \/ K <= i)%nat -> nth_error l' i = nth_error l i).
  Proof.
    intros HK Lm E. unfold add_slice. rewrite E. cbn [bind]. rewrite (proj2 (Nat.eqb_eq _ _) Lm). eexists. split; [reflexivity|].
    assert (Lf : length (firstn k l) = k) by (rewrite firstn_length; lia).
    split; [rewrite !app_length, Lm, skipn_length, Lf; lia|]. split.
    - intros i Hi. rewrite nth_error_app2 by lia. rewrite nth_error_app1 by lia. rewrite Lf. reflexivity.
    - intros i [Hi|Hi].
      + rewrite nth_error_app1 by lia. apply nth_error_firstn. exact Hi.
      + rewrite nth_error_app2 by lia. rewrite nth_error_app2 by lia. rewrite Lm, Lf, nth_error_skipn. f_equal. lia.
  Qed.
  Lemma length_add_slice (l : list F) k K d l' : (k <= K <= length l)%nat -> add_slice l k K d = Ok l' -> length l' = length l.
  Proof.
    intros HK. unfold add_slice. destruct (np_bin add (slice l k K) d) as [m|]; [|discriminate]. cbn [bind].
    destruct (Nat.eqb_spec (length m) (K - k)) as [E|]; [|discriminate]. intros E'. injection E' as <-.
    rewrite !app_length, firstn_length, skipn_length. lia.
  Qed.

  Variable minimize : (F -> list F -> F) -> list F -> F -> (F -> list F -> list F) -> (list F -> res (list F)) -> res (bool * list F).
  Lemma keeps_lengths eos w x0 md S T P S' T' : length T = length S -> stabilize_1 minimize eos w x0 md (S, T, P) = Ok (S', T') ->
    length S' = length S /\ length T' = length S.
  Proof.
    intros LT. unfold stabilize_1. destruct (valid_range_1_spec S) as (k & K & -> & H1 & _). cbn [bind].
    destruct (Nat.ltb 1 _); [|intros E; injection E as <- <-; auto].
    destruct (calc_dLRPDdp_fd_1 _ _ _ _) as [d|]; [|discriminate]. cbn [bind].
    destruct (np_any_lt _ _) as [[]|]; [|intros E; injection E as <- <-; auto|discriminate]. cbn [bind].
    destruct (minimize _ _ _ _ _) as [[b x]|]; [|discriminate]. cbn [bind fst snd].
    destruct b; [|discriminate].
    destruct (add_slice S _ _ _) as [s'|] eqn:E1; [|discriminate]. cbn [bind].
    destruct (add_slice T _ _ _) as [t'|] eqn:E2; [|discriminate]. cbn [bind].
    intros E; injection E as <- <-. rewrite (length_add_slice _ _ _ _ _ H1 E1), (length_add_slice T k K _ _ ltac:(lia) E2). auto.
  Qed.
End Generic.

(** ** binary64 *)
Lemma holds_valid_range X X' : holds_all X X' -> valid_range_1 X = valid_range_1 X'.
Proof.
  intros H. unfold valid_range_1. rewrite (holds_length _ _ H).
  rewrite (first_index_eq (seq 0 (length X')) _ (fun i => let! x := get X' i in Ok (isfinite x))).
  2:{ intros i. pose proof (get_res X X' i H) as G. destruct (get X i) as [x|e], (get X' i) as [v|e']; cbn [rres] in G; no_false G; [|cbn [bind]; congruence].
      cbn [bind]. rewrite (holds_isfinite _ _ G). reflexivity. }
  destruct (first_index _ _ _) as [k|e]; [|reflexivity]. cbn [bind].
  rewrite (first_index_eq _ _ (fun i => let! x := get X' i in Ok (isnan x))).
  2:{ intros i. pose proof (get_res X X' i H) as G. destruct (get X i) as [x|e], (get X' i) as [v|e']; cbn [rres] in G; no_false G; [|cbn [bind]; congruence].
      cbn [bind]. rewrite (holds_isnan _ _ G). reflexivity. }
  reflexivity.
Qed.

(** the error of a gradient, for given densities and pressures *)
Lemma quotient_near (r r' p p' : f64) a a' d' : finite64 p -> finite64 p' -> 0 <= fval p <= 10000 -> 0 <= fval p' <= 10000 -> / 1000 <= fval p' - fval p ->
  S_float.within r a d' -> S_float.within r' a' d' -> 0 <= d' <= / 100 -> Rabs a <= 1600 -> Rabs a' <= 1600 ->
  S_float.within (div (sub r' r) (sub p' p)) ((a' - a) / (fval p' - fval p)) ((2 * d' + 3 / 2 * dec 1 (-12)) / (fval p' - fval p))
  /\ Rabs (fval (div (sub r' r) (sub p' p))) <= 10000000.
Proof.
  intros Fp Fp' Hp Hp' Hq [Fr Wr] [Fr' Wr'] Hd Ha Ha'. set (q := fval p' - fval p) in *.
  assert (U : u64 = / 9007199254740992) by reflexivity.
  assert (Ee : eta64 <= powerRZ 2 (-100)) by (unfold eta64; apply pow2_le; lia). pose proof eta64_pos as Ep.
  assert (E100 : powerRZ 2 (-100) = / 1267650600228229401496703205376) by (simpl; lra). rewrite E100 in Ee.
  assert (Hq2 : q <= 10000) by (unfold q; lra).
  apply abs_le_of in Wr. apply abs_le_of in Wr'. apply Rabs_le_inv in Ha. apply Rabs_le_inv in Ha'.
  assert (Big : forall z, Rabs z <= 10000000 -> Rabs z <= big64).
  { intros z Hz. apply big_ge. eapply Rle_trans; [exact Hz|]. apply Rle_trans with (powerRZ 2 30); [simpl; lra|apply pow2_le; lia]. }
  assert (B1 : Rabs (fval r' - fval r) <= 3201) by (apply Rabs_le; lra).
  assert (G1 : Rabs (fval r' - fval r) <= 10000000) by lra.
  destruct (sf_sub_near r' r Fr' Fr (Big _ G1)) as [Fx Ex]. change (sf_sub r' r) with (sub r' r) in *. apply abs_le_of in Ex.
  assert (W1 : u64 * Rabs (fval r' - fval r) <= u64 * 3201) by (apply Rmult_le_compat_l; [rewrite U; lra|exact B1]).
  set (x := fval (sub r' r)) in *.
  assert (Bq : Rabs q = q) by (apply Rabs_pos_eq; lra).
  assert (G2 : Rabs (fval p' - fval p) <= 10000000) by (fold q; lra).
  destruct (sf_sub_near p' p Fp' Fp (Big _ G2)) as [Fy Ey]. change (sf_sub p' p) with (sub p' p) in *. fold q in Ey. rewrite Bq in Ey. apply abs_le_of in Ey.
  set (y := fval (sub p' p)) in *.
  assert (Hy : q * (99 / 100) <= y) by (rewrite U in Ey; lra).
  assert (Hyq : Rabs (y - q) <= 11 / 10 * u64 * q) by (apply Rabs_le; rewrite U in *; lra).
  assert (Hx : Rabs x <= 3202) by (pose proof (Rabs_le_inv _ _ B1); apply Rabs_le; rewrite U in *; lra).
  assert (Hy0 : 0 < y) by lra.
  set (z := x / y) in *. assert (Exz : x = z * y) by (unfold z; field; lra).
  assert (Hz : Rabs z * q <= 3240).
  { assert (A : Rabs z * y <= 3202) by (rewrite <- (Rabs_pos_eq y) by lra; rewrite <- Rabs_mult, <- Exz; exact Hx).
    assert (B : Rabs z * (q * (99 / 100)) <= Rabs z * y) by (apply Rmult_le_compat_l; [apply Rabs_pos|exact Hy]). nra. }
  assert (Bz : Rabs z <= 10000000).
  { apply Rmult_le_reg_r with q; [lra|]. apply Rle_trans with 3240; [exact Hz|]. lra. }
  destruct (sf_div_near (sub r' r) (sub p' p) Fx Fy ltac:(fold y; lra) (Big _ Bz)) as [Fg Eg]. fold x y in Eg. fold z in Eg.
  change (sf_div (sub r' r) (sub p' p)) with (div (sub r' r) (sub p' p)) in *.
  set (g := fval (div (sub r' r) (sub p' p))) in *. fold g.
  assert (T1 : Rabs (g * q - z * q) <= u64 * 3240 + eta64 * 10000).
  { replace (g * q - z * q) with ((g - z) * q) by ring. rewrite Rabs_mult, Bq.
    apply Rle_trans with ((u64 * Rabs z + eta64) * q); [apply Rmult_le_compat_r; [lra|exact Eg]|].
    replace ((u64 * Rabs z + eta64) * q) with (u64 * (Rabs z * q) + eta64 * q) by ring. apply Rplus_le_compat; apply Rmult_le_compat_l; rewrite ?U; lra. }
  assert (T2 : Rabs (z * q - x) <= 11 / 10 * u64 * 3240).
  { rewrite Exz. replace (z * q - z * y) with (- (z * (y - q))) by ring. rewrite Rabs_Ropp, Rabs_mult.
    apply Rle_trans with (Rabs z * (11 / 10 * u64 * q)); [apply Rmult_le_compat_l; [apply Rabs_pos|exact Hyq]|].
    replace (Rabs z * (11 / 10 * u64 * q)) with (11 / 10 * u64 * (Rabs z * q)) by ring. apply Rmult_le_compat_l; [rewrite U; lra|exact Hz]. }
  assert (D1 : dec 1 (-12) = / 1000000000000) by (unfold dec; simpl; lra).
  apply abs_le_of in T1. apply abs_le_of in T2.
  assert (TT : Rabs (g * q - (a' - a)) <= 2 * d' + 3 / 2 * dec 1 (-12)) by (apply Rabs_le; rewrite D1; rewrite U in *; lra).
  split; [split; [exact Fg|]|].
  2:{ apply Rmult_le_reg_r with q; [lra|]. apply Rle_trans with (Rabs (g * q)); [rewrite Rabs_mult, Bq; lra|]. apply Rabs_le_inv in TT. apply Rle_trans with 3300; [apply Rabs_le; rewrite D1 in TT; lra|lra]. }
  fold g. apply Rmult_le_reg_r with q; [lra|]. apply Rle_trans with (Rabs ((g - (a' - a) / q) * q)); [rewrite Rabs_mult, Bq; lra|].
  replace ((g - (a' - a) / q) * q) with (g * q - (a' - a)) by (field; lra).
  replace ((2 * d' + 3 / 2 * dec 1 (-12)) / q * q) with (2 * d' + 3 / 2 * dec 1 (-12)) by (field; lra). exact TT.
Qed.

Section Cast.
  Variables (f : f64 -> f64 -> f64 -> res f64) (D : domain) (rho : R -> R -> R -> R) (d' d eps : R).
  Hypothesis Hf : density64 f D rho d'.
  Hypothesis Hd0 : 0 <= d' <= / 100.
  Hypothesis Hd : 2 * d' + 2 * dec 1 (-12) <= d.
  Hypothesis HD : forall p, dP D p -> 0 <= p <= 10000.
  Hypothesis He : 0 <= eps.
  Let d1 := 2 * d' + 3 / 2 * dec 1 (-12).

  Lemma grad_near (s t p s' t' p' g : f64) vs vt vp vs' vt' vp' : S_vert64.holds s (Fin vs) -> S_vert64.holds t (Fin vt) -> S_vert64.holds p (Fin vp) ->
    S_vert64.holds s' (Fin vs') -> S_vert64.holds t' (Fin vt') -> S_vert64.holds p' (Fin vp') ->
    dS D vs -> dT D vt -> dP D vp -> dS D vs' -> dT D vt' -> dP D vp' -> / 1000 <= vp' - vp ->
    grad f s t p s' t' p' g ->
    S_float.within g ((rho vs' vt' ((vp + vp') / 2) - rho vs vt ((vp + vp') / 2)) / (vp' - vp)) (d1 / (vp' - vp)) /\ Rabs (fval g) <= 10000000.
  Proof.
    intros Hs Ht Hp Hs' Ht' Hp' Ds Dt Dp Ds' Dt' Dp' Hq (r & r' & Er & Er' & ->). change (mid p p') with (mean2 p p') in *.
    destruct (dn_near _ _ _ _ Hf s t p p' vs vt vp vp' Hs Ht Hp Hp' Ds Dt Dp Dp') as (y & Ey & Wy & By).
    destruct (dn_near _ _ _ _ Hf s' t' p p' vs' vt' vp vp' Hs' Ht' Hp Hp' Ds' Dt' Dp Dp') as (y' & Ey' & Wy' & By').
    assert (y = r) by congruence. assert (y' = r') by congruence. subst y y'. destruct Hp as [Fp Vp], Hp' as [Fp' Vp'].
    subst vp vp'. apply quotient_near; try assumption; apply HD; assumption.
  Qed.

  Lemma constraint_near (g m : f64) : finite64 g -> finite64 m -> Rabs (fval g) <= 10000000 -> Rabs (fval m) <= 1000000 -> - eps <= fval (sub g m) ->
    fval m - (1 + powerRZ 2 (-50)) * eps - 2 * eta64 <= fval g.
  Proof using He.
    clear Hd Hd0 Hf HD. intros Fg Fm Bg Bm Hv. set (v := fval m - fval g).
    assert (U : u64 = / 9007199254740992) by reflexivity. pose proof eta64_pos as Ep.
    assert (E50 : powerRZ 2 (-50) = / 1125899906842624) by (simpl; lra). rewrite E50.
    assert (Big : Rabs (fval g - fval m) <= big64).
    { apply big_ge. apply Rle_trans with (powerRZ 2 30); [|apply pow2_le; lia]. apply Rabs_le_inv in Bg. apply Rabs_le_inv in Bm. apply Rabs_le. simpl. lra. }
    destruct (sf_sub_near g m Fg Fm Big) as [_ E]. change (sf_sub g m) with (sub g m) in E. apply abs_le_of in E.
    destruct (Rle_lt_dec v 0) as [H|H]; [unfold v in H; assert (0 <= / 1125899906842624 * eps) by (apply Rmult_le_pos; lra); lra|].
    rewrite Rabs_left1 in E by (unfold v in H; lra). replace (- (fval g - fval m)) with v in E by (unfold v; ring).
    assert (A : v * (1 - u64) <= eps + eta64) by (unfold v in *; rewrite U in *; lra).
    assert (B : v <= (1 + / 1125899906842624) * eps + 2 * eta64).
    { rewrite U in A. nra. }
    unfold v in B. lra.
  Qed.

  (** one cast *)
  Variables (S T P : list f64) (c : S_vertsolve.column).
  Hypothesis Hh : holds_column (S, T, P) c.
  Variables (k K : nat) (ss ts ps : nat -> R).
  Hypothesis Hp : profile (fst (fst c)) (snd (fst c)) (snd c) k K ss ts ps.
  Hypothesis HW : waters D k K ss ts.
  Hypothesis HP : pressures D k K ps.

  Lemma cast_lengths : length T = length S /\ length P = length S /\ (k < K <= length S)%nat.
  Proof using Hh Hp.
    destruct c as [[S' T'] P'], Hh as (HS & HT & HPP), Hp. cbn [fst snd] in *. rewrite (holds_length _ _ HS), (holds_length _ _ HT), (holds_length _ _ HPP).
    lia.
  Qed.
  Lemma cast_get i : (k <= i < K)%nat -> exists s t p, nth_error S i = Some s /\ nth_error T i = Some t /\ nth_error P i = Some p
    /\ S_vert64.holds s (Fin (ss i)) /\ S_vert64.holds t (Fin (ts i)) /\ S_vert64.holds p (Fin (ps i)).
  Proof using Hh Hp.
    intros Hi. destruct c as [[S' T'] P'], Hh as (HS & HT & HPP), Hp as [_ _ _ GS GT GP _ _ _]. cbn [fst snd] in *.
    destruct (holds_get S S' i _ HS (GS i Hi)) as (s & Gs & Hs). destruct (holds_get T T' i _ HT (GT i Hi)) as (t & Gt & Ht).
    destruct (holds_get P P' i _ HPP (GP i Hi)) as (p & Gp & Hpp). exists s, t, p. auto 10.
  Qed.

  Variables (md : list f64) (m : nat -> R).
  Hypothesis Lmd : length md = (length S - 1)%nat.
  Hypothesis Hmd : forall i, (i < length S - 1)%nat -> exists x, nth_error md i = Some x /\ finite64 x /\ fval x = m i.
  Hypothesis Bm : forall i, Rabs (m i) <= 1000000.

  (** gradients of columns with the same pressures *)
  Lemma grads_near (Sn Tn : list f64) ss' ts' g : length Sn = (K - k)%nat -> length Tn = (K - k)%nat ->
    (forall i, (k <= i < K)%nat -> exists s t, nth_error Sn (i - k) = Some s /\ nth_error Tn (i - k) = Some t /\ S_vert64.holds s (Fin (ss' i)) /\ S_vert64.holds t (Fin (ts' i))) ->
    waters D k K ss' ts' -> grads Sn Tn (slice P k K) f g ->
    forall i, (k <= i)%nat -> (i + 1 < K)%nat -> exists x, nth_error g (i - k) = Some x /\ S_float.within x (lrpd_grad rho ss' ts' ps i) (d1 / (ps (i + 1)%nat - ps i))
      /\ Rabs (fval x) <= 10000000.
  Proof.
    intros Ls Lt Hw Dw [Lg Hg] i Hi Hi'. destruct (Hw i ltac:(lia)) as (s & t & Gs & Gt & Hs & Ht). destruct (Hw (i + 1)%nat ltac:(lia)) as (s' & t' & Gs' & Gt' & Hs' & Ht').
    destruct (cast_get i ltac:(lia)) as (_ & _ & p & _ & _ & Gp & _ & _ & Hpp). destruct (cast_get (i + 1) ltac:(lia)) as (_ & _ & p' & _ & _ & Gp' & _ & _ & Hpp').
    replace (i + 1 - k)%nat with (i - k + 1)%nat in Gs', Gt' by lia.
    assert (Q : nth_error (slice P k K) (i - k) = Some p) by (rewrite nth_error_slice by lia; replace (k + (i - k))%nat with i by lia; exact Gp).
    assert (Q' : nth_error (slice P k K) (i - k + 1) = Some p') by (rewrite nth_error_slice by lia; replace (k + (i - k + 1))%nat with (i + 1)%nat by lia; exact Gp').
    destruct (Hg (i - k)%nat _ _ _ _ _ _ Gs Gt Q Gs' Gt' Q') as (x & Gx & Hx). exists x. split; [exact Gx|]. destruct HP as [HP1 HP2].
    destruct (Dw i ltac:(lia)) as [A1 A2]. destruct (Dw (i + 1)%nat ltac:(lia)) as [A3 A4].
    exact (grad_near _ _ _ _ _ _ _ _ _ _ _ _ _ Hs Ht Hpp Hs' Ht' Hpp' A1 A2 (HP1 i ltac:(lia)) A3 A4 (HP1 (i + 1)%nat ltac:(lia)) (HP2 i Hi Hi') Hx).
  Qed.

  Variable minimize : (f64 -> list f64 -> f64) -> list f64 -> f64 -> (f64 -> list f64 -> list f64) -> (list f64 -> res (list f64)) -> res (bool * list f64).
  Variables (w : f64) (x0 : list f64).
  Hypothesis Hmin : feasible64 eps minimize.
  Hypothesis Lx0 : length x0 = (2 * length S)%nat.

  Lemma d1_d i : (k <= i)%nat -> (i + 1 < K)%nat -> 0 < ps (i + 1)%nat - ps i /\ d1 / (ps (i + 1)%nat - ps i) + 2 * eta64 <= d / (ps (i + 1)%nat - ps i).
  Proof using HP Hd HD.
    clear Lmd Lx0 Hmd. intros Hi Hi'. destruct HP as [HP1 HP2]. specialize (HP2 i Hi Hi'). set (q := ps (i + 1)%nat - ps i) in *. split; [lra|].
    assert (Q : q <= 10000) by (pose proof (HD _ (HP1 i ltac:(lia))); pose proof (HD _ (HP1 (i + 1)%nat ltac:(lia))); unfold q; lra).
    assert (Ee : eta64 <= powerRZ 2 (-100)) by (unfold eta64; apply pow2_le; lia). pose proof eta64_pos as Ep.
    assert (E100 : powerRZ 2 (-100) = / 1267650600228229401496703205376) by (simpl; lra). rewrite E100 in Ee.
    assert (D1 : dec 1 (-12) = / 1000000000000) by (unfold dec; simpl; lra).
    apply Rmult_le_reg_r with q; [lra|]. replace ((d1 / q + 2 * eta64) * q) with (d1 + 2 * (eta64 * q)) by (field; lra). replace (d / q * q) with d by (field; lra).
    assert (eta64 * q <= / 1267650600228229401496703205376 * 10000) by (apply Rmult_le_compat; lra).
    unfold d1. rewrite D1 in *. lra.
  Qed.

  Lemma cast_step :
    (forall Sn Tn, stabilize_1 minimize f w x0 md (S, T, P) = Ok (Sn, Tn) ->
       (stable rho (lower m 0 (- d) ps) k K ss ts ps -> Sn = S /\ Tn = T)
       /\ (Sn = S /\ Tn = T /\ stable rho (lower m 0 d ps) k K ss ts ps
           \/ length Sn = length S /\ length Tn = length T
              /\ (forall i, (i < k \/ K <= i)%nat -> nth_error Sn i = nth_error S i /\ nth_error Tn i = nth_error T i)
              /\ forall ss' ts', holds_water Sn Tn k K ss' ts' -> waters D k K ss' ts' ->
                   stable rho (lower m ((1 + powerRZ 2 (-50)) * eps) d ps) k K ss' ts' ps))
    /\ (forall e, stabilize_1 minimize f w x0 md (S, T, P) = Err e ->
         ~ stable rho (lower m 0 (- d) ps) k K ss ts ps
         /\ exists con, minimize objective (firstn (2 * (K - k)) x0) w jac con = Err e
              \/ exists y, minimize objective (firstn (2 * (K - k)) x0) w jac con = Ok (false, y) /\ e = RuntimeError).
  Proof.
    destruct cast_lengths as (LT & LP & HK).
    assert (Er : valid_range_1 S = Ok (k, K)).
    { destruct c as [[S' T'] P']. pose proof Hh as (HS & _). cbn [fst snd] in *. rewrite (holds_valid_range _ _ HS). exact (P_stability2.profile_range _ _ _ _ _ _ _ _ Hp). }
    assert (L1 : length (slice S k K) = (K - k)%nat) by (rewrite length_slice; lia). assert (L2 : length (slice T k K) = (K - k)%nat) by (rewrite length_slice; lia).
    assert (L3 : length (slice P k K) = (K - k)%nat) by (rewrite length_slice; lia). assert (L4 : length (slice md k (K - 1)) = (K - 1 - k)%nat) by (rewrite length_slice; lia).
    assert (G1 : forall i, (k <= i < K)%nat -> exists s t, nth_error (slice S k K) (i - k) = Some s /\ nth_error (slice T k K) (i - k) = Some t
       /\ S_vert64.holds s (Fin (ss i)) /\ S_vert64.holds t (Fin (ts i))).
    { intros i Hi. destruct (cast_get i Hi) as (s & t & _ & Gs & Gt & _ & Hs & Ht & _). exists s, t. rewrite !nth_error_slice by lia.
      replace (k + (i - k))%nat with i by lia. auto. }
    unfold stabilize_1. rewrite Er. cbn [bind]. rewrite L1. destruct (Nat.ltb_spec 1 (K - k)) as [H1|H1].
    2:{ split; [|intros e E; discriminate]. intros Sn Tn E. injection E as <- <-. split; [auto|]. left. split; [reflexivity|]. split; [reflexivity|]. intros i Hi Hi'. lia. }
    destruct (common_ok (slice S k K) (slice T k K) (slice P k K) f ltac:(lia) ltac:(lia)) as (g & Eg).
    { intros j a b p a' b' p' Ha Hb Hc Ha' Hb' Hc'. assert (Hj : (j + 1 < K - k)%nat) by (rewrite <- L1; apply nth_error_Some; congruence).
      rewrite nth_error_slice in Ha, Hb, Hc, Ha', Hb', Hc' by lia. replace (k + (j + 1))%nat with (k + j + 1)%nat in * by lia.
      destruct (cast_get (k + j) ltac:(lia)) as (s & t & q & Gs & Gt & Gq & Hs & Ht & Hq). destruct (cast_get (k + j + 1) ltac:(lia)) as (s' & t' & q' & Gs' & Gt' & Gq' & Hs' & Ht' & Hq').
      assert (s = a) by congruence. assert (t = b) by congruence. assert (q = p) by congruence. assert (s' = a') by congruence. assert (t' = b') by congruence. assert (q' = p') by congruence. subst.
      destruct HP as [HP1 _]. destruct (HW (k + j)%nat ltac:(lia)) as [A1 A2]. destruct (HW (k + j + 1)%nat ltac:(lia)) as [A3 A4].
      destruct (dn_near _ _ _ _ Hf a b p p' _ _ _ _ Hs Ht Hq Hq' A1 A2 (HP1 (k + j)%nat ltac:(lia)) (HP1 (k + j + 1)%nat ltac:(lia))) as (y & Ey & _).
      destruct (dn_near _ _ _ _ Hf a' b' p p' _ _ _ _ Hs' Ht' Hq Hq' A3 A4 (HP1 (k + j)%nat ltac:(lia)) (HP1 (k + j + 1)%nat ltac:(lia))) as (y' & Ey' & _).
      exists y, y'. split; [exact Ey|exact Ey']. }
    rewrite calc_common, Eg. cbn [bind]. assert (Gg : grads (slice S k K) (slice T k K) (slice P k K) f g) by (apply common_grads; [lia|lia|exact Eg]).
    pose proof (grads_near _ _ ss ts g L1 L2 G1 HW Gg) as Gn. destruct Gg as [Lg _].
    assert (Gm : forall i, (k <= i)%nat -> (i + 1 < K)%nat -> exists x, nth_error (slice md k (K - 1)) (i - k) = Some x /\ finite64 x /\ fval x = m i).
    { intros i Hi Hi'. destruct (Hmd i ltac:(lia)) as (x & Gx & Fx & Vx). exists x. rewrite nth_error_slice by lia. replace (k + (i - k))%nat with i by lia. auto. }
    assert (Any : exists b, np_any_lt g (slice md k (K - 1)) = Ok b /\ (b = true -> ~ stable rho (lower m 0 (- d) ps) k K ss ts ps)
      /\ (b = false -> stable rho (lower m 0 d ps) k K ss ts ps)).
    { unfold np_any_lt. rewrite (proj2 (Nat.eqb_eq _ _)) by lia. eexists. split; [reflexivity|]. split.
      - intros E Hs. apply existsb_exists in E. destruct E as ((x & y) & Hin & Hlt). apply In_nth_error in Hin. destruct Hin as (j & Hj). cbn [fst snd] in Hlt.
        assert (Hj' : nth_error g j = Some x /\ nth_error (slice md k (K - 1)) j = Some y).
        { clear - Hj. revert g Hj. generalize (slice md k (K - 1)). intros l. revert l. induction j as [|j IH]; intros [|b l] [|a g] H; cbn in *; try discriminate; [injection H as <- <-; auto|exact (IH l g H)]. }
        destruct Hj' as [J1 J2]. assert (Hjl : (j < K - k - 1)%nat) by (rewrite <- L1, <- Lg; apply nth_error_Some; congruence).
        destruct (Gn (k + j)%nat ltac:(lia) ltac:(lia)) as (x' & X1 & [X2 X3] & _). destruct (Gm (k + j)%nat ltac:(lia) ltac:(lia)) as (y' & Y1 & Y2 & Y3).
        replace (k + j - k)%nat with j in * by lia. assert (x' = x) by congruence. assert (y' = y) by congruence. subst x' y'.
        change (ltb x y) with (SFltb x y) in Hlt. rewrite (ltb_val x y X2 Y2) in Hlt. destruct (Rlt_bool_spec (fval x) (fval y)) as [Hl|]; [|discriminate].
        specialize (Hs (k + j)%nat ltac:(lia) ltac:(lia)). unfold lower in Hs. destruct (d1_d (k + j) ltac:(lia) ltac:(lia)) as [Q0 Q1]. apply abs_le_of in X3.
        pose proof eta64_pos. rewrite <- Y3 in Hs. set (q := ps (k + j + 1)%nat - ps (k + j)%nat) in *. replace (- d / q) with (- (d / q)) in Hs by (field; lra). lra.
      - intros E i Hi Hi'. destruct (Gn i Hi Hi') as (x & X1 & [X2 X3] & _). destruct (Gm i Hi Hi') as (y & Y1 & Y2 & Y3). unfold lower.
        destruct (Rlt_le_dec (fval x) (fval y)) as [Hl|Hl].
        + exfalso. rewrite <- not_true_iff_false in E. apply E. apply existsb_exists. exists (x, y). split.
          * clear - X1 Y1. revert g X1 Y1. generalize (slice md k (K - 1)). generalize (i - k)%nat. intros j. induction j as [|j IH]; intros [|b l] [|a g] H H'; cbn in *; try discriminate;
              [injection H as <-; injection H' as <-; auto|right; exact (IH l g H H')].
          * cbn [fst snd]. change (ltb x y) with (SFltb x y). rewrite (ltb_val x y X2 Y2). apply Rlt_bool_true. exact Hl.
        + destruct (d1_d i Hi Hi') as [Q0 Q1]. apply abs_le_of in X3. pose proof eta64_pos. rewrite Y3 in Hl. lra. }
    destruct Any as (b & -> & B1 & B2). cbn [bind]. destruct b.
    2:{ split; [|intros e E; discriminate]. intros Sn Tn E. injection E as <- <-. split; [auto|]. left. split; [reflexivity|]. split; [reflexivity|]. exact (B2 eq_refl). }
    specialize (B1 eq_refl). set (con := perturb_dLRPDdp_fd_1 (slice S k K) (slice T k K) (slice P k K) (slice md k (K - 1)) f).
    destruct (minimize objective (firstn (2 * (K - k)) x0) w jac con) as [[[] x]|e0] eqn:Ec; cbn [bind fst snd].
    2:{ split; [intros Sn Tn E; discriminate|]. intros e E. injection E as <-. split; [exact B1|]. exists con. right. exists x. auto. }
    2:{ split; [intros Sn Tn E; discriminate|]. intros e E. injection E as <-. split; [exact B1|]. exists con. left. exact Ec. }
    destruct (Hmin _ _ _ _ _ _ Ec) as (Lx & gg & Egg & Hgg). rewrite firstn_length, Lx0 in Lx. assert (Lx' : length x = (2 * (K - k))%nat) by lia.
    assert (L4' : length (slice md k (K - 1)) = (K - k - 1)%nat) by lia.
    destruct (perturb_grads _ _ _ _ _ _ _ (K - k) L1 L2 L3 L4' Lx' Egg) as (sn & tn & l & Esn & Etn & Lsn & Ltn & Gl & Hl).
    destruct (add_slice_ok S k K (firstn (K - k) x) sn ltac:(lia) Lsn Esn) as (Sn & -> & A1 & A2 & A3). cbn [bind].
    destruct (add_slice_ok T k K (skipn (K - k) x) tn ltac:(lia) Ltn Etn) as (Tn & -> & C1 & C2 & C3). cbn [bind].
    split; [|intros e E; discriminate]. intros S2 T2 E. injection E as <- <-. split; [intros Hs; contradiction|]. right.
    split; [exact A1|]. split; [exact C1|]. split; [auto|]. intros ss' ts' Hw' Dw' i Hi Hi'.
    assert (G' : forall i, (k <= i < K)%nat -> exists s t, nth_error sn (i - k) = Some s /\ nth_error tn (i - k) = Some t
       /\ S_vert64.holds s (Fin (ss' i)) /\ S_vert64.holds t (Fin (ts' i))).
    { intros j Hj. destruct (Hw' j Hj) as (s & t & Gs & Gt & Hs & Ht). exists s, t. rewrite <- A2, <- C2 by lia. auto. }
    destruct (grads_near _ _ ss' ts' l Lsn Ltn G' Dw' Gl i Hi Hi') as (y & Y1 & [Y2 Y3] & Y4). destruct (Gm i Hi Hi') as (z & Z1 & Z2 & Z3).
    specialize (Hl _ _ _ Y1 Z1). destruct (Hgg _ (nth_error_In _ _ Hl)) as [_ Hge].
    assert (Bz : Rabs (fval z) <= 1000000) by (rewrite Z3; apply Bm). pose proof (constraint_near y z Y2 Z2 Y4 Bz Hge) as Hc.
    unfold lower. destruct (d1_d i Hi Hi') as [Q0 Q1]. apply abs_le_of in Y3. rewrite Z3 in Hc. lra.
  Qed.
End Cast.
