(** * lib.py: proofs for val_at, _process_casts, _process_pin_cast *)
From Coq Require Import String ZArith Bool List Lia Arith.
From Verif Require Import Num Res Arr ArrLemmas Nd NdLemmas M_graph M_lib S_lib.
Import ListNotations.
Local Open Scope nat_scope.

Section Casts.
  Context {F : Type} {Nm : Num F}.


  Lemma np_index_ok n k : in_axis n k -> exists j, np_index n k = Ok j /\ j < n /\ ((0 <= k)%Z -> j = Z.to_nat k).
  Proof.
    intros H. unfold np_index, in_axis in *. rewrite (proj2 (Z.leb_le _ _)), (proj2 (Z.ltb_lt _ _)) by lia. simpl.
    eexists. split; [reflexivity|]. destruct (Z.ltb_spec k 0); split; lia.
  Qed.

  Lemma mask_neg_ok (Tk : nd F) (k : nd Z) : wf Tk -> wf k -> shape Tk = shape k ->
    exists r, mask_neg Tk k = Ok r /\ shape r = shape k /\ wf r
      /\ forall h, valid (shape k) h -> exists z x, at_ k h = Some z /\ at_ Tk h = Some x
           /\ at_ r h = Some (if (z <? 0)%Z then nan else x).
  Proof.
    intros W1 W2 E. unfold mask_neg. destruct (list_eq_dec _ _ _) as [_|N]; [|contradiction].
    eexists. split; [reflexivity|]. split; [assumption|]. unfold wf in *. simpl. split.
    - rewrite map_length, combine_length, W1, W2, E. lia.
    - intros h Hv. pose proof (ravel_lt _ _ Hv) as Hr.
      destruct (wf_at k h W2 Hv) as [z Hz]. assert (Hv' : valid (shape Tk) h) by (rewrite E; assumption).
      destruct (wf_at Tk h W1 Hv') as [x Hx]. exists z, x. split; [assumption|]. split; [assumption|].
      unfold at_ in *; simpl. rewrite nth_error_map, nth_error_combine. rewrite E in *. rewrite Hx, Hz. reflexivity.
  Qed.

  Lemma filter_true {A} (f : A -> bool) l : (forall x, In x l -> f x = true) -> filter f l = l.
  Proof. induction l as [|x l IH]; intros H; simpl; [reflexivity|]. rewrite (H x); [|left; reflexivity]. f_equal. apply IH. intros y Hy. apply H. right. assumption. Qed.

  (** T of rank n+1 and an index array of rank n without singleton axes *)
  Lemma val_at_nd (T : nd F) (k : nd Z) n :
    wf T -> wf k -> shape T = shape k ++ [n] -> 1 < ndim T -> ~ In 1 (shape k) ->
    (forall h z, valid (shape k) h -> at_ k h = Some z -> in_axis n z) ->
    exists Tk, val_at T (KArr k) = Ok (Tk, T) /\ shape Tk = shape k /\ wf Tk
      /\ forall h z, valid (shape k) h -> at_ k h = Some z -> value_at (at_ Tk h) (fun j => at_ T (h ++ [j])) z.
  Proof.
    intros WT Wk Hs Hnd H1 Hk. unfold val_at.
    rewrite (proj2 (Nat.eqb_neq _ _)) by lia.
    assert (E1 : ndim T = ndim k + 1) by (unfold ndim; rewrite Hs, app_length; reflexivity).
    rewrite E1, Nat.eqb_refl. unfold take_last.
    assert (Hl : last (shape T) 0 = n) by (rewrite Hs; apply last_last). rewrite Hl.
    destruct (list_eq_dec _ _ _) as [_|Nq]; [|symmetry in Hs; contradiction].
    destruct (buildM_ok (shape k) (fun h => let! j := np_index n (getd k 0%Z h) in Ok (getd T nan (h ++ [j])))) as (r & Er & Sr & Wr & Hr).
    { intros h Hv. destruct (np_index_ok n (getd k 0%Z h)) as (j & Ej & _).
      - apply (Hk h); [assumption|]. apply getd_at; assumption.
      - rewrite Ej. eexists. reflexivity. }
    rewrite Er. cbn [bind]. rewrite Sr.
    rewrite filter_true.
    2:{ intros x Hx. apply negb_true_iff, Nat.eqb_neq. intros ->. contradiction. }
    destruct (mask_neg_ok (mk_nd (shape k) (elems r)) k) as (m & Em & Sm & Wm & Hm).
    { unfold wf in *. simpl. rewrite Sr in Wr. assumption. }
    { assumption. }
    { reflexivity. }
    rewrite Em. cbn [bind]. exists m. split; [reflexivity|]. split; [assumption|]. split; [assumption|].
    intros h z Hv Hz. destruct (Hm h Hv) as (z' & x & Hz' & Hx & Hmx). rewrite Hz in Hz'. injection Hz' as <-.
    unfold value_at. rewrite Hmx. destruct (Z.ltb_spec z 0) as [Hneg|Hpos]; [reflexivity|].
    destruct (Hr h Hv) as (y & Hy & Ey). unfold at_ in Hy, Hx. simpl in Hx. rewrite Sr in Hy. rewrite Hx in Hy.
    injection Hy as <-.
    assert (Hg : getd k 0%Z h = z) by (pose proof (getd_at k 0%Z h Wk Hv) as Q; rewrite Hz in Q; injection Q as ->; reflexivity).
    rewrite Hg in Ey. destruct (np_index_ok n z (Hk h z Hv Hz)) as (j & Ej & Hj & Hjz). rewrite Ej in Ey. cbn [bind] in Ey.
    injection Ey as <-. rewrite <- (Hjz Hpos). symmetry. apply getd_at; [assumption|]. rewrite Hs. apply valid_snoc; assumption.
  Qed.

  (** 1D T *)
  Lemma val_at_1d (T : nd F) (k : nd Z) n :
    wf T -> wf k -> shape T = [n] ->
    (forall h z, valid (shape k) h -> at_ k h = Some z -> in_axis n z) ->
    exists Tk, val_at T (KArr k) = Ok (Tk, T) /\ shape Tk = shape k /\ wf Tk
      /\ forall h z, valid (shape k) h -> at_ k h = Some z -> value_at (at_ Tk h) (fun j => at_ T [j]) z.
  Proof.
    intros WT Wk Hs Hk. unfold val_at, ndim. rewrite Hs. simpl Nat.eqb. cbv iota. unfold fancy1. rewrite Hs. simpl nth.
    destruct (buildM_ok (shape k) (fun h => let! j := np_index n (getd k 0%Z h) in Ok (getd T nan [j]))) as (r & Er & Sr & Wr & Hr).
    { intros h Hv. destruct (np_index_ok n (getd k 0%Z h)) as (j & Ej & _).
      - apply (Hk h); [assumption|]. apply getd_at; assumption.
      - rewrite Ej. eexists. reflexivity. }
    rewrite Er. cbn [bind]. destruct (mask_neg_ok r k Wr Wk Sr) as (m & Em & Sm & Wm & Hm).
    rewrite Em. cbn [bind]. exists m. split; [reflexivity|]. split; [assumption|]. split; [assumption|].
    intros h z Hv Hz. destruct (Hm h Hv) as (z' & x & Hz' & Hx & Hmx). rewrite Hz in Hz'. injection Hz' as <-.
    unfold value_at. rewrite Hmx. destruct (Z.ltb_spec z 0) as [Hneg|Hpos]; [reflexivity|].
    destruct (Hr h Hv) as (y & Hy & Ey). rewrite Hx in Hy. injection Hy as <-.
    assert (Hg : getd k 0%Z h = z) by (pose proof (getd_at k 0%Z h Wk Hv) as Q; rewrite Hz in Q; injection Q as ->; reflexivity).
    rewrite Hg in Ey. destruct (np_index_ok n z (Hk h z Hv Hz)) as (j & Ej & Hj & Hjz). rewrite Ej in Ey. cbn [bind] in Ey.
    injection Ey as <-. rewrite <- (Hjz Hpos). symmetry. apply getd_at; [assumption|]. rewrite Hs. constructor; [assumption|constructor].
  Qed.

  (** a non-negative integer k *)
  Lemma val_at_int (T : nd F) sh n k :
    wf T -> shape T = sh ++ [n] -> k < n ->
    exists Tk, val_at T (KInt (Z.of_nat k)) = Ok (Tk, T) /\ shape Tk = sh /\ wf Tk
      /\ forall h, valid sh h -> at_ Tk h = at_ T (h ++ [k]).
  Proof.
    intros WT Hs Hk. unfold val_at, last_at. rewrite Hs, rev_app_distr. simpl rev. simpl app.
    destruct (np_index_ok n (Z.of_nat k)) as (j & Ej & Hj & Hjz); [unfold in_axis; lia|].
    rewrite Ej. cbn [bind]. rewrite (proj2 (Z.ltb_ge _ _)) by lia. rewrite rev_involutive.
    eexists. split; [reflexivity|]. split; [reflexivity|]. split; [apply build_wf|]. intros h Hv.
    rewrite build_at by assumption. rewrite Hjz by lia. rewrite Nat2Z.id. symmetry. apply getd_at; [assumption|].
    rewrite Hs. apply valid_snoc; assumption.
  Qed.

  (** a negative integer -k: the level k from the end is overwritten *)
  Lemma val_at_negative (T : nd F) sh n k :
    wf T -> shape T = sh ++ [n] -> 0 < k <= n ->
    exists Tk T', val_at T (KInt (- Z.of_nat k)) = Ok (Tk, T') /\ shape Tk = sh /\ wf Tk /\ shape T' = shape T /\ wf T'
      /\ forall h, valid sh h -> at_ Tk h = Some nan
           /\ forall j, j < n -> at_ T' (h ++ [j]) = if Nat.eqb (j + k) n then Some nan else at_ T (h ++ [j]).
  Proof.
    intros WT Hs Hk.
    assert (E : np_index n (- Z.of_nat k) = Ok (n - k)).
    { unfold np_index. rewrite (proj2 (Z.leb_le _ _)) by lia. rewrite (proj2 (Z.ltb_lt (- Z.of_nat k) (Z.of_nat n))) by lia. cbn [andb].
      rewrite (proj2 (Z.ltb_lt _ _)) by lia. f_equal. lia. }
    assert (L : forall U : nd F, shape U = sh ++ [n] -> last_at U (- Z.of_nat k) = Ok (build sh (fun h => getd U nan (h ++ [n - k])))).
    { intros U Hu. unfold last_at. rewrite Hu, rev_app_distr. cbn [rev app]. rewrite E. cbn [bind]. rewrite rev_involutive. reflexivity. }
    unfold val_at. rewrite (L T Hs). cbn [bind]. rewrite (proj2 (Z.ltb_lt _ _)) by lia. unfold fill_last. rewrite Hs, rev_app_distr.
    cbn [rev app]. rewrite E. cbn [bind]. set (T' := build (sh ++ [n]) _). rewrite (L T' eq_refl). cbn [bind].
    assert (A : forall h j, valid sh h -> j < n -> at_ T' (h ++ [j]) = if Nat.eqb (j + k) n then Some nan else at_ T (h ++ [j])).
    { intros h j Hv Hj. unfold T'. rewrite build_at by (apply valid_snoc; assumption). rewrite last_last.
      rewrite (getd_at T nan) by (try rewrite Hs; try apply valid_snoc; assumption).
      destruct (Nat.eqb_spec j (n - k)), (Nat.eqb_spec (j + k) n); try lia; reflexivity. }
    assert (W : wf T') by apply build_wf.
    eexists. exists T'. split; [reflexivity|]. split; [reflexivity|]. split; [apply build_wf|]. split; [reflexivity|]. split; [exact W|].
    intros h Hv. split; [|intros j Hj; apply A; assumption].
    rewrite build_at by assumption. rewrite <- (getd_at T' nan _ W) by (apply valid_snoc; [assumption|lia]).
    rewrite A by (assumption || lia). destruct (Nat.eqb_spec (n - k + k) n); [reflexivity|lia].
  Qed.

  (** ** casts *)
  Lemma insert_at_app {A} (s1 : list A) k s2 : insert_at (length s1) k (s1 ++ s2) = s1 ++ k :: s2.
  Proof.
    unfold insert_at. rewrite firstn_app, Nat.sub_diag, firstn_all, skipn_app, Nat.sub_diag, skipn_all. simpl.
    rewrite app_nil_r. reflexivity.
  Qed.
  Lemma remove_at_app {A} (s1 : list A) k s2 : remove_at (length s1) (s1 ++ k :: s2) = s1 ++ s2.
  Proof.
    unfold remove_at. rewrite firstn_app, Nat.sub_diag, firstn_all. simpl firstn. rewrite app_nil_r. f_equal.
    rewrite skipn_app, skipn_all2 by lia. replace (S (length s1) - length s1) with 1 by lia. reflexivity.
  Qed.
  Lemma nth_app_mid {A} (s1 : list A) k s2 d : nth (length s1) (s1 ++ k :: s2) d = k.
  Proof. rewrite app_nth2, Nat.sub_diag by lia. reflexivity. Qed.

  Lemma contiguous_ok (S : nd F) s1 n s2 : wf S -> shape S = s1 ++ n :: s2 ->
    exists out, contiguous_casts S (length s1) = Ok out /\ laid_out (at_ S) s1 s2 n out.
  Proof.
    intros W Hs. unfold contiguous_casts.
    assert (Hnd : ndim S = Datatypes.S (length s1 + length s2)) by (unfold ndim; rewrite Hs, app_length; simpl; lia).
    destruct (Nat.ltb 1 (ndim S) && negb (Nat.eqb (length s1) (ndim S - 1))) eqn:E.
    - unfold moveaxis_last. rewrite (proj2 (Nat.ltb_lt _ _)) by lia. eexists. split; [reflexivity|].
      unfold laid_out. rewrite Hs, remove_at_app, nth_app_mid.
      assert (Esh : (s1 ++ s2) ++ [n] = s1 ++ s2 ++ [n]) by (rewrite app_assoc; reflexivity). rewrite Esh.
      split; [reflexivity|]. split; [apply build_wf|]. intros h1 h2 k V1 V2 Hk.
      rewrite build_at.
      + rewrite app_assoc, last_last, removelast_last.
        assert (HL : length s1 = length h1) by (symmetry; apply valid_length; assumption). rewrite HL, insert_at_app.
        symmetry. apply getd_at; [assumption|]. rewrite Hs. apply valid_app; [assumption|]. constructor; assumption.
      + apply valid_app; [assumption|]. apply valid_snoc; assumption.
    - exists S. split; [reflexivity|].
      assert (Hs2 : s2 = []).
      { destruct s2 as [|x s2]; [reflexivity|]. exfalso. rewrite Hnd in E. simpl length in E.
        rewrite (proj2 (Nat.ltb_lt _ _)) in E by lia. rewrite (proj2 (Nat.eqb_neq _ _)) in E by lia. discriminate. }
      subst s2. split; [assumption|]. split; [assumption|]. intros h1 h2 k V1 V2 Hk. inversion V2; subst. reflexivity.
  Qed.

  (** the reshape of a 1D P puts its length at position v *)
  Lemma seq_shape (L : nat) : forall m v s, v < m ->
    map (fun x => if Nat.eqb x (s + v) then L else 1) (seq s m) = repeat 1 v ++ L :: repeat 1 (m - Datatypes.S v).
  Proof.
    induction m as [|m IH]; intros v s H; [lia|]. destruct v as [|v].
    - simpl. rewrite Nat.add_0_r, Nat.eqb_refl. f_equal. rewrite Nat.sub_0_r.
      assert (G : forall j q, s < q -> map (fun x => if Nat.eqb x s then L else 1) (seq q j) = repeat 1 j).
      { induction j as [|j IHj]; intros q Hq; simpl; [reflexivity|]. rewrite (proj2 (Nat.eqb_neq _ _)) by lia.
        f_equal. apply IHj. lia. }
      apply G. lia.
    - simpl. rewrite (proj2 (Nat.eqb_neq _ _)) by lia. f_equal.
      replace (s + Datatypes.S v) with (Datatypes.S s + v) by lia. apply IH. lia.
  Qed.

  Lemma combine_app_len {A B} : forall (a : list A) (b : list B) a' b', length a = length b ->
    combine (a ++ a') (b ++ b') = combine a b ++ combine a' b'.
  Proof. induction a as [|x a IH]; intros [|y b] a' b' H; try discriminate; simpl; [reflexivity|]. f_equal. apply IH. simpl in H. lia. Qed.

  Lemma zeros_of_ones : forall h, map (fun p : nat * nat => if Nat.eqb (fst p) 1 then 0 else snd p) (combine (repeat 1 (length h)) h) = repeat 0 (length h).
  Proof. induction h as [|x h IH]; simpl; [reflexivity|]. f_equal. assumption. Qed.

  Lemma prod_ones m : prod (repeat 1 m) = 1.
  Proof. induction m as [|m IH]; simpl; [reflexivity|]. lia. Qed.

  Lemma ravel_ones_mid m m' n i : ravel (repeat 1 m ++ n :: repeat 1 m') (repeat 0 m ++ i :: repeat 0 m') = i.
  Proof.
    induction m as [|m IH]; simpl; [|assumption]. rewrite prod_ones.
    assert (H : ravel (repeat 1 m') (repeat 0 m') = 0) by (clear; induction m' as [|m' IH]; simpl; auto). lia.
  Qed.

  Lemma forallb_ones : forall sh, forallb (fun p : nat * nat => Nat.eqb (fst p) (snd p) || Nat.eqb (fst p) 1) (combine (repeat 1 (length sh)) sh) = true.
  Proof. induction sh as [|x sh IH]; simpl; [reflexivity|]. rewrite orb_true_r. assumption. Qed.

  (** 1D P against S of higher rank *)
  Lemma broadcast_P_1d (P : nd F) s1 n s2 : wf P -> shape P = [n] -> s1 ++ s2 <> [] ->
    exists p, broadcast_P P (s1 ++ n :: s2) (length s1) = Ok p /\ shape p = s1 ++ n :: s2 /\ wf p
      /\ forall h1 k h2, valid s1 h1 -> k < n -> valid s2 h2 -> at_ p (h1 ++ k :: h2) = at_ P [k].
  Proof.
    intros W Hs Hne. unfold broadcast_P.
    assert (HL : length (s1 ++ n :: s2) = Datatypes.S (length s1 + length s2)) by (rewrite app_length; simpl; lia).
    assert (Hpos : 0 < length s1 + length s2) by (destruct s1, s2; simpl in *; try lia; congruence).
    unfold ndim at 1. rewrite Hs. simpl length at 1. rewrite (proj2 (Nat.ltb_lt _ _)) by lia.
    assert (HE : length (elems P) = n) by (unfold wf in W; rewrite W, Hs; simpl; lia).
    rewrite HE. pose proof (seq_shape n (length (s1 ++ n :: s2)) (length s1) 0) as Hsh. simpl in Hsh. rewrite Hsh by lia. clear Hsh.
    replace (length (s1 ++ n :: s2) - Datatypes.S (length s1)) with (length s2) by lia.
    unfold broadcast_to, ndim. cbn [shape elems].
    assert (HL' : length (repeat 1 (length s1) ++ n :: repeat 1 (length s2)) = Datatypes.S (length s1 + length s2))
      by (rewrite app_length; simpl; rewrite !repeat_length; lia).
    rewrite HL', HL, Nat.eqb_refl.
    rewrite combine_app_len by apply repeat_length. rewrite forallb_app, forallb_ones. simpl combine. cbn [forallb fst snd].
    rewrite Nat.eqb_refl, forallb_ones. simpl.
    eexists. split; [reflexivity|]. split; [reflexivity|]. split; [apply build_wf|]. intros h1 k h2 V1 Hk V2.
    rewrite build_at by (apply valid_app; [assumption|constructor; assumption]).
    pose proof (valid_length _ _ V1) as L1. pose proof (valid_length _ _ V2) as L2.
    rewrite <- L1, <- L2. rewrite combine_app_len by apply repeat_length. rewrite map_app. simpl combine. cbn [map fst snd].
    rewrite !zeros_of_ones. unfold getd. cbn [shape elems].
    unfold at_. rewrite Hs. simpl ravel. rewrite Nat.mul_1_r, Nat.add_0_r.
    assert (Hn : n = 1 -> k = 0) by lia.
    replace (if Nat.eqb n 1 then 0 else k) with k by (destruct (Nat.eqb_spec n 1); auto).
    rewrite ravel_ones_mid. symmetry. apply nth_error_nth'. lia.
  Qed.

  (** S, T of equal shape with the vertical axis at position |s1| *)
  Lemma process_casts_ok (S T P : @data F) v s1 n s2 :
    wf (arr S) -> wf (arr T) -> wf (arr P) ->
    shape (arr S) = s1 ++ n :: s2 -> shape (arr T) = s1 ++ n :: s2 ->
    process_vert_dim v S = Ok (length s1) ->
    (shape (arr P) = s1 ++ n :: s2 \/ shape (arr P) = [n]) ->
    exists s t p, process_casts S T P v = Ok (s, t, p)
      /\ laid_out (at_ (arr S)) s1 s2 n s /\ laid_out (at_ (arr T)) s1 s2 n t
      /\ laid_out (fun ix => if Nat.eqb (ndim (arr P)) (ndim (arr S)) then at_ (arr P) ix else at_ (arr P) [nth (length s1) ix 0])
           s1 s2 n p.
  Proof.
    intros WS WT WP HS HT Hv HP. unfold process_casts. rewrite Hv. cbn [bind].
    destruct (contiguous_ok (arr S) s1 n s2 WS HS) as (s & Es & Ls).
    destruct (contiguous_ok (arr T) s1 n s2 WT HT) as (t & Et & Lt).
    assert (Hnd : ndim (arr S) = Datatypes.S (length s1 + length s2)) by (unfold ndim; rewrite HS, app_length; simpl; lia).
    assert (Hp : exists p0 p, broadcast_P (arr P) (shape (arr S)) (length s1) = Ok p0
       /\ contiguous_casts p0 (length s1) = Ok p
       /\ laid_out (fun ix => if Nat.eqb (ndim (arr P)) (ndim (arr S)) then at_ (arr P) ix else at_ (arr P) [nth (length s1) ix 0]) s1 s2 n p).
    { assert (Hfull : shape (arr P) = s1 ++ n :: s2 -> exists p0 p, broadcast_P (arr P) (shape (arr S)) (length s1) = Ok p0
       /\ contiguous_casts p0 (length s1) = Ok p
       /\ laid_out (fun ix => if Nat.eqb (ndim (arr P)) (ndim (arr S)) then at_ (arr P) ix else at_ (arr P) [nth (length s1) ix 0]) s1 s2 n p).
      { intros E. exists (arr P). destruct (contiguous_ok (arr P) s1 n s2 WP E) as (p & Ep & L1 & L2 & L3). exists p. split; [|split].
        - unfold broadcast_P, ndim. rewrite E, <- HS. rewrite Nat.ltb_irrefl. reflexivity.
        - assumption.
        - split; [assumption|]. split; [assumption|]. intros h1 h2 k V1 V2 Hk. unfold ndim. rewrite E, HS, Nat.eqb_refl. apply L3; assumption. }
      destruct HP as [E|E]; [auto|]. destruct (list_eq_dec Nat.eq_dec (s1 ++ s2) []) as [He|Hne].
      - apply Hfull. destruct s1, s2; try discriminate. assumption.
      - rewrite HS. destruct (broadcast_P_1d (arr P) s1 n s2 WP E Hne) as (p0 & E0 & S0 & W0 & H0).
        destruct (contiguous_ok p0 s1 n s2 W0 S0) as (p & Ep & L1 & L2 & L3).
        exists p0, p. split; [assumption|]. split; [assumption|]. split; [assumption|]. split; [assumption|].
        intros h1 h2 k V1 V2 Hk. rewrite L3 by assumption. rewrite H0 by assumption.
        rewrite (proj2 (Nat.eqb_neq _ _)).
        + pose proof (valid_length _ _ V1) as LL. rewrite <- LL, nth_app_mid. reflexivity.
        + rewrite Hnd. unfold ndim. rewrite E. simpl. destruct s1, s2; simpl in *; try lia; congruence. }
    destruct Hp as (p0 & p & E0 & Ep & Lp). rewrite E0. cbn [bind]. rewrite Es. cbn [bind]. rewrite Et. cbn [bind]. rewrite Ep. cbn [bind].
    exists s, t, p. split; [reflexivity|]. auto.
  Qed.

  (** which axis vert_dim selects *)
  Lemma process_vert_dim_int z (S : @data F) : 0 < ndim (arr S) ->
    process_vert_dim (VInt z) S = Ok (Z.to_nat (z mod Z.of_nat (ndim (arr S)))).
  Proof. intros H. unfold process_vert_dim, np_mod. rewrite (proj2 (Nat.eqb_neq _ _)) by lia. reflexivity. Qed.

  Lemma index_of_spec s : forall ds i, index_of s ds = Some i ->
    nth_error ds i = Some s /\ forall j, j < i -> nth_error ds j <> Some s.
  Proof.
    induction ds as [|x ds IH]; intros i E; simpl in E; [discriminate|]. destruct (String.eqb_spec x s) as [->|Hne].
    - injection E as <-. split; [reflexivity|]. intros; lia.
    - destruct (index_of s ds) as [j|] eqn:Ej; [|discriminate]. injection E as <-. destruct (IH j eq_refl) as [H1 H2].
      split; [assumption|]. intros [|q] Hq; simpl; [congruence|]. apply H2. lia.
  Qed.

  Lemma index_of_ok s : forall ds i, NoDup ds -> nth_error ds i = Some s -> index_of s ds = Some i.
  Proof.
    induction ds as [|x ds IH]; intros [|i] Hnd E; simpl in *; try discriminate.
    - injection E as ->. rewrite String.eqb_refl. reflexivity.
    - inversion Hnd; subst. destruct (String.eqb_spec x s) as [->|Hne].
      + exfalso. apply H1. eapply nth_error_In; eauto.
      + rewrite (IH i); auto.
  Qed.

  Lemma process_vert_dim_name s (S : @data F) ds i : dims S = Some ds -> NoDup ds -> length ds = ndim (arr S) ->
    nth_error ds i = Some s -> process_vert_dim (VName s) S = Ok i.
  Proof.
    intros Hd Hnd Hl Hi. unfold process_vert_dim. rewrite Hd, (index_of_ok s ds i Hnd Hi). unfold np_mod.
    pose proof (nth_error_lt _ _ _ Hi). rewrite (proj2 (Nat.eqb_neq _ _)) by lia. rewrite Z.mod_small by lia.
    rewrite Nat2Z.id. reflexivity.
  Qed.

  (** output container: the dimensions of S without the vertical one *)
  Lemma xr_in_ok (S : @data F) d1 s d2 s1 n s2 v :
    dims S = Some (d1 ++ s :: d2) -> NoDup (d1 ++ s :: d2) -> shape (arr S) = s1 ++ n :: s2 -> length d1 = length s1 ->
    length d2 = length s2 -> 0 < n -> In s (coords S) ->
    (v = VName s \/ exists z, v = VInt z /\ in_axis (ndim (arr S)) z /\ (z mod Z.of_nat (ndim (arr S)) = Z.of_nat (length d1))%Z) ->
    xr_in S v = Ok (Some (d1 ++ d2, s1 ++ s2)).
  Proof.
    intros Hd Hnd Hs Hl Hl2 Hn Hc Hv. unfold xr_in. rewrite Hd.
    assert (Hi : nth_error (d1 ++ s :: d2) (length d1) = Some s) by (rewrite nth_error_app2, Nat.sub_diag by lia; reflexivity).
    assert (Hx : existsb (String.eqb s) (coords S) = true) by (apply existsb_exists; exists s; split; [assumption|apply String.eqb_refl]).
    assert (Hfin : match index_of s (d1 ++ s :: d2) with
        | None => Err ValueError
        | Some i =>
            if Nat.eqb (nth i (shape (arr S)) 0) 0 then Err IndexError
            else if existsb (String.eqb s) (coords S) then Ok (Some (remove_at i (d1 ++ s :: d2), remove_at i (shape (arr S))))
            else Err ValueError
        end = Ok (Some (d1 ++ d2, s1 ++ s2))).
    { rewrite (index_of_ok s _ _ Hnd Hi). rewrite Hs. rewrite Hl at 1. rewrite nth_app_mid.
      rewrite (proj2 (Nat.eqb_neq _ _)) by lia. rewrite Hx. rewrite remove_at_app. rewrite Hl, remove_at_app. reflexivity. }
    destruct Hv as [->|(z & -> & Hz & Hm)]; [exact Hfin|].
    assert (HL : length (d1 ++ s :: d2) = ndim (arr S)) by (unfold ndim; rewrite Hs, !app_length; simpl; lia).
    rewrite HL. unfold np_index, in_axis in *. rewrite (proj2 (Z.leb_le _ _)), (proj2 (Z.ltb_lt _ _)) by lia.
    cbn [andb bind].
    assert (Hpos : (0 < Z.of_nat (ndim (arr S)))%Z) by lia.
    assert (Ei : Z.to_nat (if (z <? 0)%Z then z + Z.of_nat (ndim (arr S)) else z)%Z = length d1).
    { destruct (Z.ltb_spec z 0).
      - rewrite <- (Z.mod_add z 1) in Hm by lia. rewrite Z.mul_1_l in Hm. rewrite Z.mod_small in Hm by lia. lia.
      - rewrite Z.mod_small in Hm by lia. lia. }
    rewrite Ei, Hi. exact Hfin.
  Qed.
End Casts.
