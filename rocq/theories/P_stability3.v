(** * Static stability: whole arrays *)
From Coq Require Import String ZArith Bool Reals Lra Lia List.
From Verif Require Import Num XR Res Arr ArrLemmas Nd NdLemmas XRlemmas M_lib M_ppinterp P_ppinterp S_lib P_casts M_mixed_layer S_traj S_mixed_layer
  P_mixed_layer P_mixed_layer2 M_stability S_stability P_stability P_stability2.
Import ListNotations.

Section Loop.
  Context {F : Type} {N : Num F}.

  Lemma loop_spec (f : trip -> res (list F * list F)) cs : forall l e, stabilize_loop f cs = (l, e) ->
    length l = length cs /\ exists j, j <= length cs
      /\ (e = None -> j = length cs)
      /\ (forall x, e = Some x -> exists c, nth_error cs j = Some c /\ f c = Err x)
      /\ (forall i c, i < j -> nth_error cs i = Some c -> exists st, nth_error l i = Some st /\ f c = Ok st)
      /\ (forall i c, j <= i -> nth_error cs i = Some c -> nth_error l i = Some (fst c)).
  Proof.
    induction cs as [|c cs IH]; intros l e E; cbn [stabilize_loop] in E.
    - injection E as <- <-. split; [reflexivity|]. exists 0. split; [lia|]. split; [reflexivity|]. split; [discriminate|].
      split; intros i c _ H; destruct i; discriminate.
    - destruct (f c) as [st|x] eqn:Ef.
      + destruct (stabilize_loop f cs) as [l' e'] eqn:El. injection E as <- <-. destruct (IH l' e' eq_refl) as (L & j & H1 & H2 & H3 & H4 & H5).
        split; [simpl; lia|]. exists (S j). split; [simpl; lia|]. split; [intros H; simpl; rewrite H2 by exact H; reflexivity|]. split; [|split].
        * intros x Hx. destruct (H3 x Hx) as (c' & A & B). exists c'. auto.
        * intros [|i] c' Hi Hc; simpl in Hc |- *; [injection Hc as <-; eauto|]. apply H4; [lia|exact Hc].
        * intros [|i] c' Hi Hc; [lia|]. simpl in Hc |- *. apply H5; [lia|exact Hc].
      + injection E as <- <-. split; [change (length (map fst (c :: cs)) = length (c :: cs)); apply map_length|]. exists 0. split; [lia|]. split; [discriminate|]. split; [|split].
        * intros y Hy. injection Hy as <-. exists c. auto.
        * intros i c' Hi. lia.
        * intros i c' _ Hc. transitivity (option_map fst (nth_error (c :: cs) i)); [apply (nth_error_map fst i (c :: cs))|rewrite Hc; reflexivity].
  Qed.

  Lemma concat_cast hs n (l : list (list F)) : length l = prod hs -> (forall c, In c l -> length c = n) ->
    wf (mk_nd (hs ++ [n]) (concat l))
    /\ forall h c, valid hs h -> nth_error l (ravel hs h) = Some c -> cast_at (at_ (mk_nd (hs ++ [n]) (concat l))) n h [] c.
  Proof.
    intros L Hc. assert (E : concat l = flat_map (fun c => c) l) by (rewrite flat_map_concat_map, map_id; reflexivity). rewrite E. split.
    - unfold wf. cbn [elems shape]. rewrite (length_flat_map_const _ n l Hc), prod_app, L. cbn [prod]. lia.
    - intros h c Hh Hn. assert (Lc : length c = n) by (apply Hc; eapply nth_error_In; eassumption). split; [exact Lc|].
      intros k Hk. unfold at_. cbn [shape elems]. rewrite ravel_snoc by exact Hh.
      destruct (nth_error c k) as [y|] eqn:Ey; [|apply nth_error_None in Ey; lia].
      symmetry. apply (nth_error_flat_map_const (fun c => c) n l (ravel hs h) k c y Hc Hn Ey).
  Qed.
End Loop.

Lemma seq_map_add k n : map (fun i => k + i) (seq 0 n) = seq k n.
Proof.
  revert k. induction n as [|n IH]; intros k; [reflexivity|]. cbn [seq map]. rewrite Nat.add_0_r. f_equal.
  rewrite <- (IH (S k)), <- seq_shift, map_map. apply map_ext. intros; lia.
Qed.

Section Whole.
  Variable minimize : (xr -> list xr -> xr) -> list xr -> xr -> (xr -> list xr -> list xr) -> (list xr -> res (list xr)) -> res (bool * list xr).
  Variables (eps : R) (eos : xr -> xr -> xr -> res xr) (rho : R -> R -> R -> R) (w : xr) (wr : R) (md : @scalar_or_array xr) (m : nat -> R) (normal : nat -> list xr).
  Variables (S T P : @data xr) (v : vdim) (s1 s2 : list nat) (n : nat).
  Hypothesis WS : wf (arr S).
  Hypothesis WT : wf (arr T).
  Hypothesis WP : wf (arr P).
  Hypothesis SS : shape (arr S) = s1 ++ n :: s2.
  Hypothesis ST : shape (arr T) = s1 ++ n :: s2.
  Hypothesis SP : shape (arr P) = s1 ++ n :: s2 \/ shape (arr P) = [n].
  Hypothesis Hv : process_vert_dim v S = Ok (length s1).
  Hypothesis Hn : n <> 0.
  Hypothesis Hw : w = Fin wr.
  Hypothesis He : eos_real eos rho.
  Hypothesis Hm : thresholds md n m.
  Hypothesis Hnormal : forall n, length (normal n) = n.
  Hypothesis Hf : feasible eps minimize.
  Hypothesis Hany : forall h1 h2 s t p, valid s1 h1 -> valid s2 h2 ->
    cast_at (at_ (arr S)) n h1 h2 s -> cast_at (at_ (arr T)) n h1 h2 t -> cast_at (Px S P s1) n h1 h2 p -> any_profile s t p.

  Lemma stabilize_whole : exists s' t' e j, stabilize_ST minimize S T P eos md w v normal = Ok (s', t', e)
    /\ shape s' = s1 ++ s2 ++ [n] /\ shape t' = s1 ++ s2 ++ [n] /\ wf s' /\ wf t'
    /\ (e = None -> j = prod (s1 ++ s2))
    /\ (forall x, e = Some x -> exists h1 h2 s t p k K ss ts ps, valid s1 h1 /\ valid s2 h2 /\ ravel (s1 ++ s2) (h1 ++ h2) = j
          /\ cast_at (at_ (arr S)) n h1 h2 s /\ cast_at (at_ (arr T)) n h1 h2 t /\ cast_at (Px S P s1) n h1 h2 p
          /\ profile s t p k K ss ts ps /\ ~ stable rho m k K ss ts ps
          /\ exists c, constraint_of rho m k K ss ts ps c
               /\ (minimize objective (firstn (2 * (K - k)) (normal (2 * n))) w jac c = Err x
                   \/ exists y, minimize objective (firstn (2 * (K - k)) (normal (2 * n))) w jac c = Ok (false, y) /\ x = RuntimeError))
    /\ forall h1 h2 s t p, valid s1 h1 -> valid s2 h2 ->
         cast_at (at_ (arr S)) n h1 h2 s -> cast_at (at_ (arr T)) n h1 h2 t -> cast_at (Px S P s1) n h1 h2 p ->
         exists sn tn, cast_at (at_ s') n (h1 ++ h2) [] sn /\ cast_at (at_ t') n (h1 ++ h2) [] tn
           /\ (ravel (s1 ++ s2) (h1 ++ h2) < j -> stabilized rho m eps wr (optimal minimize) s t p sn tn)
           /\ (j <= ravel (s1 ++ s2) (h1 ++ h2) -> sn = s /\ tn = t).
  Proof.
    destruct (casts_ready S T P v s1 s2 n WS WT WP SS ST SP Hv) as (s & t & p & Ec & Es & Et & Ep & Hc).
    set (lm := match md with Scalar x => repeat x (n - 1) | Vector l => l end).
    assert (Hl : length lm = n - 1 /\ forall i, i < n - 1 -> nth_error lm i = Some (Fin (m i))).
    { unfold lm. unfold thresholds in Hm. destruct md as [x|l]; [|exact Hm]. split; [apply repeat_length|].
      intros i Hi. rewrite nth_error_repeat_lt by exact Hi. rewrite (Hm i). reflexivity. }
    set (hs := s1 ++ s2) in *.
    set (tr := fun h => (column s n h, column t n h, column p n h)).
    set (f := stabilize_1 minimize eos w (normal (2 * n)) lm).
    assert (Etr : triples n s t p = map tr (all_idx hs)).
    { apply triples_map; rewrite ?Es, ?Et, ?Ep; apply hshape. }
    assert (HmdE : (match md with Scalar x => if Nat.eqb n 0 then Err ValueError else Ok (repeat x (n - 1)) | Vector l => Ok l end) = Ok lm).
    { unfold lm. destruct md; [|reflexivity]. destruct (Nat.eqb_spec n 0); [contradiction|reflexivity]. }
    unfold stabilize_ST. rewrite Ec. cbn [bind]. rewrite Es, Et, Ep.
    destruct (list_eq_dec Nat.eq_dec (s1 ++ s2 ++ [n]) (s1 ++ s2 ++ [n])) as [_|C]; [|congruence].
    rewrite rev_shape. rewrite HmdE. cbn [bind]. rewrite Etr. fold f.
    destruct (stabilize_loop f (map tr (all_idx hs))) as [l e] eqn:El.
    destruct (loop_spec f _ l e El) as (Ll & j & Hj & Hj1 & Hj2 & Hj3 & Hj4). rewrite map_length, length_all_idx in Ll, Hj.
    assert (Lcol : forall a h, length (column (F := xr) a n h) = n) by (intros; unfold column; rewrite map_length, seq_length; reflexivity).
    assert (Hidx : forall i, i < prod hs -> exists h, nth_error (all_idx hs) i = Some h /\ valid hs h).
    { intros i Hi. destruct (nth_error (all_idx hs) i) as [h|] eqn:E; [|apply nth_error_None in E; rewrite length_all_idx in E; lia].
      exists h. split; [reflexivity|]. apply in_all_idx. eapply nth_error_In; eassumption. }
    assert (Hlen : forall st, In st l -> length (fst st) = n /\ length (snd st) = n).
    { intros st Hin. apply In_nth_error in Hin. destruct Hin as [i Hi]. pose proof (nth_error_lt _ _ _ Hi) as Hlt. rewrite Ll in Hlt.
      destruct (Hidx i Hlt) as (h & Eh & _). assert (Etri : nth_error (map tr (all_idx hs)) i = Some (tr h)) by (rewrite nth_error_map, Eh; reflexivity).
      destruct (Nat.lt_ge_cases i j) as [Hij|Hij].
      - destruct (Hj3 i _ Hij Etri) as (st' & A & B). rewrite Hi in A. injection A as <-. destruct st as [a b]. cbn [fst snd].
        destruct (keeps_length minimize eos w (normal (2 * n)) lm (column s n h) (column t n h) (column p n h) a b) as [A B']; [rewrite !Lcol; reflexivity|exact B|].
        rewrite A, B'. auto.
      - rewrite (Hj4 i _ Hij Etri) in Hi. injection Hi as <-. cbn [tr fst snd]. auto. }
    destruct (concat_cast hs n (map fst l)) as [W1 C1]; [rewrite map_length; exact Ll|intros c Hin; apply in_map_iff in Hin; destruct Hin as (st & <- & Hin); apply Hlen; exact Hin|].
    destruct (concat_cast hs n (map snd l)) as [W2 C2]; [rewrite map_length; exact Ll|intros c Hin; apply in_map_iff in Hin; destruct Hin as (st & <- & Hin); apply Hlen; exact Hin|].
    assert (Ehs : s1 ++ s2 ++ [n] = hs ++ [n]) by (unfold hs; apply app_assoc).
    rewrite Ehs. exists (mk_nd (hs ++ [n]) (concat (map fst l))), (mk_nd (hs ++ [n]) (concat (map snd l))), e, j.
    split; [reflexivity|]. split; [reflexivity|]. split; [reflexivity|]. split; [exact W1|]. split; [exact W2|].
    split; [intros H; rewrite (Hj1 H), map_length, length_all_idx; reflexivity|]. split.
    - intros x Hx. destruct (Hj2 x Hx) as (c & Ecj & Efc). rewrite nth_error_map in Ecj.
      destruct (nth_error (all_idx hs) j) as [h|] eqn:Eh; [|discriminate]. injection Ecj as <-.
      assert (Hh : valid hs h) by (apply in_all_idx; eapply nth_error_In; eassumption).
      assert (Hr : ravel hs h = j).
      { apply (NoDup_nth_error (all_idx hs)); [apply NoDup_all_idx| |].
        - rewrite length_all_idx. apply ravel_lt. exact Hh.
        - rewrite nth_error_all_idx by exact Hh. symmetry. exact Eh. }
      unfold hs in Hh. apply valid_app_inv in Hh. destruct Hh as (h1 & h2 & -> & H1 & H2). destruct (Hc h1 h2 H1 H2) as (A & B & C).
      exists h1, h2, (column s n (h1 ++ h2)), (column t n (h1 ++ h2)), (column p n (h1 ++ h2)).
      destruct (Hany h1 h2 _ _ _ H1 H2 A B C) as [Hmis|(k & K & ss & ts & ps & Hp)].
      { exfalso. unfold f, tr in Efc. rewrite missing_step in Efc by exact Hmis. discriminate. }
      exists k, K, ss, ts, ps. repeat (split; [assumption|]).
      destruct (step minimize eos rho w (normal (2 * n)) lm m He _ _ _ k K ss ts ps Hp) as [St Un];
        [rewrite Lcol; lia|rewrite Lcol; apply Hl|rewrite Hnormal, Lcol; reflexivity|]. unfold f, tr in Efc.
      assert (Hns : ~ stable rho m k K ss ts ps) by (intros Hs; rewrite (St Hs) in Efc; discriminate).
      split; [exact Hns|]. destruct (Un Hns) as (U1 & U2 & U3).
      exists (con eos m k K ss ts ps). split.
      { intros xs Lx. unfold con. rewrite (perturb_vec eos rho ss ts ps m k (K - k) xs He) by first [exact Lx|intros i Hi1 Hi2; apply (pr_inc _ _ _ _ _ _ _ _ Hp); lia].
        f_equal. unfold vec. rewrite <- (seq_map_add k), map_map. reflexivity. }
      fold (call minimize eos w (normal (2 * n)) m k K ss ts ps).
      destruct (call minimize eos w (normal (2 * n)) m k K ss ts ps) as [[[] y]|e'] eqn:Ecall.
      + exfalso. destruct (Hf _ _ _ _ _ _ Ecall) as (L & (xs & ->) & _). rewrite map_length, firstn_length, Hnormal in L.
        pose proof (pr_kK _ _ _ _ _ _ _ _ Hp) as HK. rewrite Lcol in HK.
        destruct (U3 xs eq_refl ltac:(lia)) as (a & b & E & _). rewrite E in Efc. discriminate.
      + right. rewrite (U2 y eq_refl) in Efc. injection Efc as <-. eauto.
      + left. rewrite (U1 e' eq_refl) in Efc. injection Efc as <-. reflexivity.
    - intros h1 h2 s0 t0 p0 H1 H2 A0 B0 C0. destruct (Hc h1 h2 H1 H2) as (A & B & C).
      pose proof (cast_at_unique _ _ _ _ _ _ A0 A) as ->. pose proof (cast_at_unique _ _ _ _ _ _ B0 B) as ->. pose proof (cast_at_unique _ _ _ _ _ _ C0 C) as ->.
      assert (Hh : valid hs (h1 ++ h2)) by (apply valid_app; assumption).
      assert (Etri : nth_error (map tr (all_idx hs)) (ravel hs (h1 ++ h2)) = Some (tr (h1 ++ h2))) by (rewrite nth_error_map, nth_error_all_idx by exact Hh; reflexivity).
      destruct (Nat.lt_ge_cases (ravel hs (h1 ++ h2)) j) as [Hij|Hij].
      + destruct (Hj3 _ _ Hij Etri) as ([sn tn] & D & E). exists sn, tn.
        split; [apply C1; [exact Hh|rewrite nth_error_map, D; reflexivity]|]. split; [apply C2; [exact Hh|rewrite nth_error_map, D; reflexivity]|].
        split; [|intros; lia]. intros _. unfold f, tr in E. split.
        * intros Hmis. rewrite missing_step in E by exact Hmis. injection E as <- <-. auto.
        * intros k K ss ts ps Hp.
          apply (step_stabilized minimize eps eos rho w (normal (2 * n)) lm m He _ _ _ k K ss ts ps Hp) with (wr := wr);
            [rewrite Lcol; lia|rewrite Lcol; apply Hl|rewrite Hnormal, Lcol; reflexivity|exact Hw|exact Hf|exact E].
      + pose proof (Hj4 _ _ Hij Etri) as D. exists (column s n (h1 ++ h2)), (column t n (h1 ++ h2)).
        split; [apply C1; [exact Hh|rewrite nth_error_map, D; reflexivity]|]. split; [apply C2; [exact Hh|rewrite nth_error_map, D; reflexivity]|].
        split; [intros; lia|auto].
  Qed.
End Whole.

(** ** Afterwards nothing is counted unstable *)
(** known levels only where S, T and P are known first *)
Definition gap_free (S : list xr) (K : nat) : Prop := forall i, K <= i -> i < length S -> nth_error S i = Some NaN.

Lemma number_none {A} (Q : A -> Prop) c : (forall x, ~ Q x) -> number_of Q c -> c = 0.
Proof. intros H (l & _ & <- & Hl). destruct l as [|x l]; [reflexivity|]. exfalso. apply (H x). apply Hl. left. reflexivity. Qed.

Lemma stable_pairs rho m k K ss ts ps S T P i : profile S T P k K ss ts ps -> gap_free S K -> stable rho m k K ss ts ps ->
  (forall i, k <= i -> i + 1 < K -> (0 < m i)%R) -> forall s t p s' t' p', nth_error S i = Some (Fin s) -> nth_error T i = Some (Fin t) -> nth_error P i = Some (Fin p) ->
  nth_error S (i + 1) = Some (Fin s') -> nth_error T (i + 1) = Some (Fin t') -> nth_error P (i + 1) = Some (Fin p') ->
  (rho s t ((p + p') / 2) < rho s' t' ((p + p') / 2))%R.
Proof.
  intros [LT LP HK HS HT HP Hinc Hpre Hpost] Hg Hst Hm s t p s' t' p' E1 E2 E3 E4 E5 E6.
  assert (Hi : k <= i).
  { destruct (Nat.lt_ge_cases i k) as [H|H]; [|exact H]. rewrite (Hpre i H) in E1. discriminate. }
  assert (Hi' : i + 1 < K).
  { destruct (Nat.lt_ge_cases (i + 1) K) as [H|H]; [exact H|]. rewrite (Hg (i + 1)) in E4; [discriminate|exact H|eapply nth_error_lt; eassumption]. }
  rewrite HS in E1 by lia. rewrite HT in E2 by lia. rewrite HP in E3 by lia. rewrite HS in E4 by lia. rewrite HT in E5 by lia. rewrite HP in E6 by lia.
  injection E1 as <-. injection E2 as <-. injection E3 as <-. injection E4 as <-. injection E5 as <-. injection E6 as <-.
  specialize (Hst i Hi Hi'). specialize (Hm i Hi Hi'). specialize (Hinc i Hi Hi'). unfold lrpd_grad in Hst.
  assert (G : (0 < (rho (ss (i + 1)%nat) (ts (i + 1)%nat) ((ps i + ps (i + 1)%nat) / 2) - rho (ss i) (ts i) ((ps i + ps (i + 1)%nat) / 2)) / (ps (i + 1)%nat - ps i))%R)
    by (eapply Rlt_le_trans; [exact Hm|exact Hst]).
  apply Rnot_le_lt. intros C. apply (Rlt_irrefl 0). eapply Rlt_le_trans; [exact G|].
  apply Rmult_le_reg_r with (ps (i + 1)%nat - ps i)%R; [lra|]. unfold Rdiv. rewrite Rmult_assoc, Rinv_l by lra. lra.
Qed.

Section After.
  Variable minimize : (xr -> list xr -> xr) -> list xr -> xr -> (xr -> list xr -> list xr) -> (list xr -> res (list xr)) -> res (bool * list xr).
  Variables (eps : R) (eos : xr -> xr -> xr -> res xr) (rho : R -> R -> R -> R) (w : xr) (wr : R) (md : @scalar_or_array xr) (m : nat -> R) (normal : nat -> list xr).
  Variables (S T P S2 T2 : @data xr) (v : vdim) (s1 s2 : list nat) (n : nat) (s' t' : nd xr).
  Hypothesis WS : wf (arr S).
  Hypothesis WT : wf (arr T).
  Hypothesis WP : wf (arr P).
  Hypothesis SS : shape (arr S) = s1 ++ n :: s2.
  Hypothesis ST : shape (arr T) = s1 ++ n :: s2.
  Hypothesis SP : shape (arr P) = s1 ++ n :: s2 \/ shape (arr P) = [n].
  Hypothesis Hv : process_vert_dim v S = Ok (length s1).
  Hypothesis Hn : n <> 0.
  Hypothesis Hw : w = Fin wr.
  Hypothesis He : eos_real eos rho.
  Hypothesis Hm : thresholds md n m.
  Hypothesis Hnormal : forall n, length (normal n) = n.
  Hypothesis Hf : feasible eps minimize.
  Hypothesis Hany : forall h1 h2 s t p, valid s1 h1 -> valid s2 h2 ->
    cast_at (at_ (arr S)) n h1 h2 s -> cast_at (at_ (arr T)) n h1 h2 t -> cast_at (Px S P s1) n h1 h2 p -> any_profile s t p.
  Hypothesis Hrun : stabilize_ST minimize S T P eos md w v normal = Ok (s', t', None).
  Hypothesis WS2 : wf (arr S2).
  Hypothesis WT2 : wf (arr T2).
  Hypothesis SS2 : shape (arr S2) = s1 ++ n :: s2.
  Hypothesis ST2 : shape (arr T2) = s1 ++ n :: s2.
  Hypothesis Hv2 : process_vert_dim v S2 = Ok (length s1).
  Hypothesis HS2 : forall h1 k h2, valid s1 h1 -> k < n -> valid s2 h2 -> at_ (arr S2) (h1 ++ k :: h2) = at_ s' (h1 ++ h2 ++ [k]).
  Hypothesis HT2 : forall h1 k h2, valid s1 h1 -> k < n -> valid s2 h2 -> at_ (arr T2) (h1 ++ k :: h2) = at_ t' (h1 ++ h2 ++ [k]).

  Lemma Px2 : Px S2 P s1 = Px S P s1.
  Proof. unfold Px. unfold ndim. rewrite SS, SS2. reflexivity. Qed.

  (** each cast of the new arrays, with the cast it came from *)
  Lemma after_cast h1 h2 : valid s1 h1 -> valid s2 h2 -> exists s t p sn tn,
    cast_at (at_ (arr S)) n h1 h2 s /\ cast_at (at_ (arr T)) n h1 h2 t /\ cast_at (Px S P s1) n h1 h2 p
    /\ cast_at (at_ (arr S2)) n h1 h2 sn /\ cast_at (at_ (arr T2)) n h1 h2 tn
    /\ cast_at (at_ s') n (h1 ++ h2) [] sn /\ cast_at (at_ t') n (h1 ++ h2) [] tn
    /\ stabilized rho m eps wr (optimal minimize) s t p sn tn.
  Proof.
    intros H1 H2. destruct (casts_ready S T P v s1 s2 n WS WT WP SS ST SP Hv) as (s & t & p & _ & _ & _ & _ & Hc).
    destruct (Hc h1 h2 H1 H2) as (A & B & C).
    destruct (stabilize_whole minimize eps eos rho w wr md m normal S T P v s1 s2 n WS WT WP SS ST SP Hv Hn Hw He Hm Hnormal Hf Hany)
      as (x & y & e & j & E & _ & _ & _ & _ & Hj & _ & Hcs). rewrite Hrun in E. injection E as <- <- <-.
    destruct (Hcs h1 h2 _ _ _ H1 H2 A B C) as (sn & tn & D1 & D2 & D3 & _).
    exists (column s n (h1 ++ h2)), (column t n (h1 ++ h2)), (column p n (h1 ++ h2)), sn, tn. repeat (split; [assumption|]).
    assert (G : forall (a a' : nd xr) l, (forall h1 k h2, valid s1 h1 -> k < n -> valid s2 h2 -> at_ a (h1 ++ k :: h2) = at_ a' (h1 ++ h2 ++ [k])) ->
       cast_at (at_ a') n (h1 ++ h2) [] l -> cast_at (at_ a) n h1 h2 l).
    { intros a a' l Ha [L Hl]. split; [exact L|]. intros k Hk. rewrite Ha by assumption. rewrite Hl by exact Hk. rewrite <- app_assoc. reflexivity. }
    split; [eapply G; [exact HS2|exact D1]|]. split; [eapply G; [exact HT2|exact D2]|]. split; [exact D1|]. split; [exact D2|]. apply D3.
    rewrite (Hj eq_refl). apply ravel_lt. apply valid_app; assumption.
  Qed.

  Lemma after_profile s t p sn tn : any_profile s t p -> stabilized rho m eps wr (optimal minimize) s t p sn tn ->
    (all_missing sn /\ sn = s /\ tn = t) \/ exists k K ss ts ps ss' ts', profile s t p k K ss ts ps /\ profile sn tn p k K ss' ts' ps
      /\ (stable rho m k K ss' ts' ps \/ stable rho (fun i => m i - eps)%R k K ss' ts' ps)
      /\ length sn = length s
      /\ forall i, (i < k \/ K <= i) -> nth_error sn i = nth_error s i /\ nth_error tn i = nth_error t i.
  Proof.
    intros [Hmis|(k & K & ss & ts & ps & Hp)] [A B].
    - left. destruct (A Hmis) as [-> ->]. auto.
    - right. exists k, K, ss, ts, ps. destruct (B k K ss ts ps Hp) as [B1 B2].
      destruct (Classical_Prop.classic (stable rho m k K ss ts ps)) as [Hs|Hs].
      + destruct (B1 Hs) as [-> ->]. exists ss, ts. split; [exact Hp|]. split; [exact Hp|]. auto.
      + destruct (B2 Hs) as (ss' & ts' & P1 & P2 & _ & P3 & P4). exists ss', ts'. auto 10.
  Qed.

  Lemma after_any h1 h2 s t p : valid s1 h1 -> valid s2 h2 ->
    cast_at (at_ (arr S2)) n h1 h2 s -> cast_at (at_ (arr T2)) n h1 h2 t -> cast_at (Px S2 P s1) n h1 h2 p -> any_profile s t p.
  Proof.
    intros H1 H2 A B C. destruct (after_cast h1 h2 H1 H2) as (s0 & t0 & p0 & sn & tn & A0 & B0 & C0 & A1 & B1 & _ & _ & Hs).
    rewrite Px2 in C. rewrite (cast_at_unique _ _ _ _ _ _ A A1), (cast_at_unique _ _ _ _ _ _ B B1), (cast_at_unique _ _ _ _ _ _ C C0).
    destruct (after_profile _ _ _ _ _ (Hany _ _ _ _ _ H1 H2 A0 B0 C0) Hs) as [(H & _)|(k & K & ss & ts & ps & ss' & ts' & _ & Hp & _)];
      [left; exact H|right; exists k, K, ss', ts', ps; exact Hp].
  Qed.

  Hypothesis Hgap : forall h1 h2 s, valid s1 h1 -> valid s2 h2 -> cast_at (at_ (arr S)) n h1 h2 s -> no_gap s.

  Lemma gap_free_profile S0 T0 P0 k K ss ts ps : profile S0 T0 P0 k K ss ts ps -> no_gap S0 -> gap_free S0 K.
  Proof.
    intros [LT LP HK HS HT HP Hinc Hpre Hpost] Hg i Hi Hi'. destruct (Nat.eq_dec i K) as [->|Hne]; [apply Hpost; exact Hi'|].
    destruct (nth_error S0 i) as [y|] eqn:E; [|apply nth_error_None in E; lia].
    destruct (Classical_Prop.classic (y = NaN)) as [->|Hy]; [reflexivity|]. exfalso.
    apply (Hg k i K (Fin (ss k)) y NaN); [lia|apply HS; lia|exact E|apply Hpost; lia|discriminate|exact Hy|reflexivity].
  Qed.

  Lemma none_unstable : (forall i, i + 1 < n -> (0 < m i - eps)%R) -> (0 <= eps)%R -> sea_eos eos rho -> no_inf (arr S) -> no_inf (arr T) -> no_inf (arr P) ->
    count_unstable S2 T2 P None (Some eos) None v = Ok 0.
  Proof.
    intros Hpos Heps Hsea NS NT NP.
    assert (NI : forall X2 : @data xr, wf (arr X2) -> shape (arr X2) = s1 ++ n :: s2 ->
       (forall h1 h2 k x, valid s1 h1 -> valid s2 h2 -> k < n -> at_ (arr X2) (h1 ++ k :: h2) = Some x -> not_inf x) -> no_inf (arr X2)).
    { intros X2 W Sh H x Hin. apply In_nth_error in Hin. destruct Hin as [i Hi].
      assert (Hl : i < prod (shape (arr X2))) by (rewrite <- W; eapply nth_error_lt; eassumption).
      destruct (nth_error (all_idx (shape (arr X2))) i) as [ix|] eqn:E; [|apply nth_error_None in E; rewrite length_all_idx in E; lia].
      assert (Hv' : valid (shape (arr X2)) ix) by (apply in_all_idx; eapply nth_error_In; eassumption).
      assert (Hr : ravel (shape (arr X2)) ix = i).
      { apply (NoDup_nth_error (all_idx (shape (arr X2)))); [apply NoDup_all_idx| |].
        - rewrite length_all_idx. apply ravel_lt. exact Hv'.
        - rewrite nth_error_all_idx by exact Hv'. symmetry. exact E. }
      assert (Ha : at_ (arr X2) ix = Some x) by (unfold at_; rewrite Hr; exact Hi).
      rewrite Sh in Hv'. apply valid_app_inv in Hv'. destruct Hv' as (h1 & h2' & -> & H1 & H2'). inversion H2' as [|? k ? h2 Hk H2]; subst.
      eapply H; eassumption. }
    assert (NSx : forall h1 h2 l, cast_at (at_ (arr S)) n h1 h2 l -> forall k x, nth_error l k = Some x -> not_inf x).
    { intros h1 h2 l [L Hl] k x Hx. eapply no_inf_at; [exact NS|]. rewrite <- Hl; [exact Hx|]. rewrite <- L. eapply nth_error_lt; eassumption. }
    assert (NTx : forall h1 h2 l, cast_at (at_ (arr T)) n h1 h2 l -> forall k x, nth_error l k = Some x -> not_inf x).
    { intros h1 h2 l [L Hl] k x Hx. eapply no_inf_at; [exact NT|]. rewrite <- Hl; [exact Hx|]. rewrite <- L. eapply nth_error_lt; eassumption. }
    assert (NSn : forall h1 h2 k x, valid s1 h1 -> valid s2 h2 -> k < n -> at_ (arr S2) (h1 ++ k :: h2) = Some x -> not_inf x).
    { intros h1 h2 k x H1 H2 Hk Hx. destruct (after_cast h1 h2 H1 H2) as (s0 & t0 & p0 & sn & tn & A0 & B0 & C0 & A1 & B1 & _ & _ & Hs).
      rewrite <- (proj2 A1) in Hx by exact Hk.
      destruct (after_profile _ _ _ _ _ (Hany _ _ _ _ _ H1 H2 A0 B0 C0) Hs) as [(H & _)|(j & K & ss & ts & ps & ss' & ts' & _ & Hp & _ & _ & Ho)].
      - left. apply H. eapply nth_error_In; eassumption.
      - destruct (Nat.lt_ge_cases k j) as [Hj|Hj]; [eapply NSx; [exact A0|rewrite <- (proj1 (Ho k (or_introl Hj))); exact Hx]|].
        destruct (Nat.lt_ge_cases k K) as [HK|HK]; [|eapply NSx; [exact A0|rewrite <- (proj1 (Ho k (or_intror HK))); exact Hx]].
        rewrite (pr_S _ _ _ _ _ _ _ _ Hp) in Hx by lia. injection Hx as <-. right. eauto. }
    assert (NTn : forall h1 h2 k x, valid s1 h1 -> valid s2 h2 -> k < n -> at_ (arr T2) (h1 ++ k :: h2) = Some x -> not_inf x).
    { intros h1 h2 k x H1 H2 Hk Hx. destruct (after_cast h1 h2 H1 H2) as (s0 & t0 & p0 & sn & tn & A0 & B0 & C0 & A1 & B1 & _ & _ & Hs).
      rewrite <- (proj2 B1) in Hx by exact Hk.
      destruct (after_profile _ _ _ _ _ (Hany _ _ _ _ _ H1 H2 A0 B0 C0) Hs) as [(_ & _ & ->)|(j & K & ss & ts & ps & ss' & ts' & _ & Hp & _ & _ & Ho)].
      - eapply NTx; [exact B0|exact Hx].
      - destruct (Nat.lt_ge_cases k j) as [Hj|Hj]; [eapply NTx; [exact B0|rewrite <- (proj2 (Ho k (or_introl Hj))); exact Hx]|].
        destruct (Nat.lt_ge_cases k K) as [HK|HK]; [|eapply NTx; [exact B0|rewrite <- (proj2 (Ho k (or_intror HK))); exact Hx]].
        rewrite (pr_T _ _ _ _ _ _ _ _ Hp) in Hx by lia. injection Hx as <-. right. eauto. }
    destruct (count_pairs S2 T2 P v s1 s2 n eos rho WS2 WT2 WP SS2 ST2 SP Hv2) as (c & Ec & Hc);
      [apply NI; assumption|apply NI; assumption|exact NP|exact Hsea|].
    rewrite Ec. f_equal. eapply number_none; [|exact Hc]. intros [[h1 h2] k] (H1 & H2 & Hk & s & t & p & sx & tx & px & E1 & E2 & E3 & E4 & E5 & E6 & Hle).
    destruct (after_cast h1 h2 H1 H2) as (s0 & t0 & p0 & sn & tn & A0 & B0 & C0 & A1 & B1 & _ & _ & Hs).
    rewrite Px2 in E3, E6.
    rewrite <- (proj2 A1) in E1, E4 by lia. rewrite <- (proj2 B1) in E2, E5 by lia. rewrite <- (proj2 C0) in E3, E6 by lia.
    destruct (after_profile _ _ _ _ _ (Hany _ _ _ _ _ H1 H2 A0 B0 C0) Hs) as [(H & _)|(j & K & ss & ts & ps & ss' & ts' & Hp0 & Hp & Hst & Ls & Ho)].
    - apply nth_error_In in E1. apply H in E1. discriminate.
    - assert (Hst' : stable rho (fun i => m i - eps)%R j K ss' ts' ps).
      { destruct Hst as [Hst|Hst]; [|exact Hst]. intros i Hi1 Hi2. specialize (Hst i Hi1 Hi2). lra. }
      assert (Gf : gap_free sn K).
      { intros i Hi Hi'. rewrite (proj1 (Ho i (or_intror Hi))). apply (gap_free_profile _ _ _ _ _ _ _ _ Hp0); [apply (Hgap h1 h2 s0 H1 H2 A0)|exact Hi|lia]. }
      pose proof (stable_pairs rho _ j K ss' ts' ps sn tn p0 k Hp Gf Hst') as Hord.
      specialize (Hord ltac:(intros i Hi1 Hi2; apply Hpos; pose proof (pr_kK _ _ _ _ _ _ _ _ Hp) as HK; rewrite (proj1 A1) in HK; lia)).
      specialize (Hord _ _ _ _ _ _ E1 E2 E3 E4 E5 E6). lra.
  Qed.

  (** a second run changes nothing *)
  Lemma second_run : (eps <= 0)%R -> stabilize_ST minimize S2 T2 P eos md w v normal = Ok (s', t', None).
  Proof.
    intros Heps.
    destruct (stabilize_whole minimize eps eos rho w wr md m normal S T P v s1 s2 n WS WT WP SS ST SP Hv Hn Hw He Hm Hnormal Hf Hany)
      as (x & y & e & j & E & Sx & Sy & Wx & Wy & _). rewrite Hrun in E. injection E as <- <- <-.
    destruct (stabilize_whole minimize eps eos rho w wr md m normal S2 T2 P v s1 s2 n WS2 WT2 WP SS2 ST2 SP Hv2 Hn Hw He Hm Hnormal Hf after_any)
      as (x & y & e & j2 & E & Sx2 & Sy2 & Wx2 & Wy2 & Hj & Hfail & Hcs).
    assert (Stab : forall h1 h2 s t p k K ss ts ps, valid s1 h1 -> valid s2 h2 ->
      cast_at (at_ (arr S2)) n h1 h2 s -> cast_at (at_ (arr T2)) n h1 h2 t -> cast_at (Px S2 P s1) n h1 h2 p ->
      profile s t p k K ss ts ps -> stable rho m k K ss ts ps).
    { intros h1 h2 s t p k K ss ts ps H1 H2 A B C Hp. destruct (after_cast h1 h2 H1 H2) as (s0 & t0 & p0 & sn & tn & A0 & B0 & C0 & A1 & B1 & _ & _ & Hs).
      rewrite Px2 in C. rewrite (cast_at_unique _ _ _ _ _ _ A A1), (cast_at_unique _ _ _ _ _ _ B B1), (cast_at_unique _ _ _ _ _ _ C C0) in Hp.
      destruct (after_profile _ _ _ _ _ (Hany _ _ _ _ _ H1 H2 A0 B0 C0) Hs) as [(H & _)|(k' & K' & ss0 & ts0 & ps' & ss' & ts' & _ & Hp' & Hst & _)].
      - exfalso. pose proof (pr_kK _ _ _ _ _ _ _ _ Hp). pose proof (pr_S _ _ _ _ _ _ _ _ Hp k ltac:(lia)) as Ek.
        apply nth_error_In in Ek. apply H in Ek. discriminate.
      - pose proof (profile_range _ _ _ _ _ _ _ _ Hp) as R1. rewrite (profile_range _ _ _ _ _ _ _ _ Hp') in R1. injection R1 as -> ->.
        assert (Hst' : stable rho m k K ss' ts' ps').
        { destruct Hst as [Hst|Hst]; [exact Hst|]. intros i Hi1 Hi2. specialize (Hst i Hi1 Hi2). lra. }
        assert (Q : forall i, k <= i < K -> ss' i = ss i /\ ts' i = ts i /\ ps' i = ps i).
        { intros i Hi. pose proof (pr_S _ _ _ _ _ _ _ _ Hp i Hi) as X1. pose proof (pr_T _ _ _ _ _ _ _ _ Hp i Hi) as X2. pose proof (pr_P _ _ _ _ _ _ _ _ Hp i Hi) as X3.
          rewrite (pr_S _ _ _ _ _ _ _ _ Hp' i Hi) in X1. rewrite (pr_T _ _ _ _ _ _ _ _ Hp' i Hi) in X2. rewrite (pr_P _ _ _ _ _ _ _ _ Hp' i Hi) in X3.
          injection X1. injection X2. injection X3. auto. }
        intros i Hi1 Hi2. specialize (Hst' i Hi1 Hi2). unfold lrpd_grad in *.
        destruct (Q i ltac:(lia)) as (<- & <- & <-). destruct (Q (i + 1) ltac:(lia)) as (<- & <- & <-). exact Hst'. }
    rewrite E. assert (e = None) as ->.
    { destruct e as [ex|]; [|reflexivity]. exfalso. destruct (Hfail ex eq_refl) as (h1 & h2 & s & t & p & k & K & ss & ts & ps & H1 & H2 & _ & A & B & C & Hp & Hns & _).
      apply Hns. eapply Stab; eassumption. }
    rewrite (Hj eq_refl) in Hcs. clear Hj Hfail.
    assert (Same : forall h1 h2, valid s1 h1 -> valid s2 h2 -> exists sn tn, cast_at (at_ s') n (h1 ++ h2) [] sn /\ cast_at (at_ t') n (h1 ++ h2) [] tn
       /\ cast_at (at_ x) n (h1 ++ h2) [] sn /\ cast_at (at_ y) n (h1 ++ h2) [] tn).
    { intros h1 h2 H1 H2. destruct (after_cast h1 h2 H1 H2) as (s0 & t0 & p0 & sn & tn & A0 & B0 & C0 & A1 & B1 & D1 & D2 & Hs).
      assert (C1 : cast_at (Px S2 P s1) n h1 h2 p0) by (rewrite Px2; exact C0).
      destruct (Hcs h1 h2 sn tn p0 H1 H2 A1 B1 C1) as (sm & tm & F1 & F2 & F3 & _).
      destruct (F3 ltac:(apply ravel_lt; apply valid_app; assumption)) as [G1 G2].
      assert (sm = sn /\ tm = tn) as [-> ->].
      { destruct (after_any h1 h2 sn tn p0 H1 H2 A1 B1 C1) as [Hmis|(k & K & ss & ts & ps & Hp)]; [apply G1; exact Hmis|].
        apply (proj1 (G2 k K ss ts ps Hp)). eapply Stab; eassumption. }
      exists sn, tn. auto. }
    assert (Eq : forall a b : nd xr, shape a = s1 ++ s2 ++ [n] -> shape b = s1 ++ s2 ++ [n] -> wf a -> wf b ->
       (forall h1 h2 k, valid s1 h1 -> valid s2 h2 -> k < n -> at_ a (h1 ++ h2 ++ [k]) = at_ b (h1 ++ h2 ++ [k])) -> a = b).
    { intros [sa ea] [sb eb]. unfold wf. cbn [shape elems]. intros -> -> Wa Wb H. f_equal. apply nth_error_ext. intros i.
      destruct (Nat.lt_ge_cases i (prod (s1 ++ s2 ++ [n]))) as [Hi|Hi].
      2:{ rewrite (proj2 (nth_error_None ea i)), (proj2 (nth_error_None eb i)) by lia. reflexivity. }
      destruct (nth_error (all_idx (s1 ++ s2 ++ [n])) i) as [ix|] eqn:Ei; [|apply nth_error_None in Ei; rewrite length_all_idx in Ei; lia].
      assert (Hv' : valid (s1 ++ s2 ++ [n]) ix) by (apply in_all_idx; eapply nth_error_In; eassumption).
      assert (Hr : ravel (s1 ++ s2 ++ [n]) ix = i).
      { apply (NoDup_nth_error (all_idx (s1 ++ s2 ++ [n]))); [apply NoDup_all_idx| |].
        - rewrite length_all_idx. apply ravel_lt. exact Hv'.
        - rewrite nth_error_all_idx by exact Hv'. symmetry. exact Ei. }
      rewrite <- Hr. apply valid_app_inv in Hv'. destruct Hv' as (h1 & h3 & -> & H1 & H3). apply valid_snoc_inv in H3. destruct H3 as (h2 & k & -> & H2 & Hk).
      apply (H h1 h2 k H1 H2 Hk). }
    do 3 f_equal; [|f_equal]; apply Eq; try assumption; intros h1 h2 k H1 H2 Hk; destruct (Same h1 h2 H1 H2) as (sn & tn & [_ X1] & [_ X2] & [_ X3] & [_ X4]);
      rewrite app_assoc; [rewrite <- X3, <- X1 by exact Hk|rewrite <- X4, <- X2 by exact Hk]; reflexivity.
  Qed.
End After.
