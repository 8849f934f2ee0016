(** * Proofs about xgcm grids *)
From Coq Require Import Ascii String List ZArith Bool Lia Permutation FinFun.
From Verif Require Import Num Res Arr ArrLemmas Nd NdLemmas M_grid M_xgcm S_graph S_grid S_xgcm P_lib P_tab P_grid P_select.
Import ListNotations.
Local Open Scope nat_scope.

Lemma index_of_in nm ds : In nm ds -> exists k, index_of nm ds = Some k /\ nth_error ds k = Some nm.
Proof.
  induction ds as [|d ds IH]; intros H; [destruct H|]. simpl. destruct (String.eqb_spec d nm) as [->|Hne].
  - exists 0. auto.
  - destruct H as [H|H]; [congruence|]. destruct (IH H) as (k & -> & Hk). exists (S k). auto.
Qed.

Lemma index_of_notin nm ds : ~ In nm ds -> index_of nm ds = None.
Proof.
  induction ds as [|d ds IH]; intros H; [reflexivity|]. simpl. destruct (String.eqb_spec d nm) as [->|Hne].
  - exfalso. apply H. left. reflexivity.
  - rewrite IH by (intros C; apply H; right; assumption). reflexivity.
Qed.

Lemma entry_map ds (f : string -> nat) nm : In nm ds -> entry ds (map f ds) nm = f nm.
Proof.
  intros H. unfold entry. destruct (index_of_in nm ds H) as (k & -> & Hk).
  apply nth_error_nth. rewrite nth_error_map, Hk. reflexivity.
Qed.

Lemma valid_map (sz s : string -> nat) ds : (forall nm, In nm ds -> s nm < sz nm) -> valid (map sz ds) (map s ds).
Proof.
  unfold valid. induction ds as [|d ds IH]; intros H; [constructor|]. simpl. constructor; [apply H; left; reflexivity|].
  apply IH. intros nm Hn. apply H. right. assumption.
Qed.

(** every valid index is that of a cell *)
Lemma valid_cell (sz : string -> nat) ds ix : NoDup ds -> valid (map sz ds) ix ->
  exists s, ix = map s ds /\ forall nm, In nm ds -> s nm < sz nm.
Proof.
  revert ix. induction ds as [|d ds IH]; intros ix ND H; inversion H as [|? x ? q Hx Hq]; subst.
  - exists (fun _ => 0). split; [reflexivity|]. intros nm [].
  - inversion ND as [|? ? Hd ND']; subst. destruct (IH q ND' Hq) as (s & -> & Hs).
    exists (fun nm => if String.eqb nm d then x else s nm). split.
    + simpl. rewrite String.eqb_refl. f_equal. apply map_ext_in. intros nm Hn.
      destruct (String.eqb_spec nm d) as [->|]; [contradiction|reflexivity].
    + intros nm [<-|Hn]; [rewrite String.eqb_refl; assumption|]. destruct (String.eqb_spec nm d) as [->|]; [assumption|auto].
Qed.

(** row-major position is invertible *)
Lemma ravel_inv sh : forall k, k < prod sh -> exists ix, valid sh ix /\ ravel sh ix = k.
Proof.
  intros k Hk. destruct (nth_error (all_idx sh) k) as [ix|] eqn:E.
  - exists ix. assert (Hv : valid sh ix) by (apply in_all_idx; eapply nth_error_In; eauto). split; [assumption|].
    pose proof (nth_error_all_idx sh ix Hv) as E2.
    assert (ND : NoDup (all_idx sh)).
    { clear. induction sh as [|n r IH]; simpl; [constructor; [auto|constructor]|].
      generalize 0. induction n as [|n IHn]; intros c; simpl; [constructor|].
      assert (D : forall q, In q (map (cons c) (all_idx r)) -> ~ In q (flat_map (fun i => map (cons i) (all_idx r)) (seq (S c) n))).
      { intros q Hq C. apply in_map_iff in Hq as (u & <- & _). apply in_flat_map in C as (i & Hi & C).
        apply in_map_iff in C as (v & E & _). injection E as <- _. apply in_seq in Hi. lia. }
      assert (N1 : NoDup (map (cons c) (all_idx r))).
      { apply Injective_map_NoDup; [intros x y E; congruence|assumption]. }
      specialize (IHn (S c)). revert N1 D IHn. generalize (map (cons c) (all_idx r)), (flat_map (fun i => map (cons i) (all_idx r)) (seq (S c) n)).
      intros l1 l2. induction l1 as [|x l1 IH1]; intros N1 D N2; simpl; [assumption|]. inversion N1; subst. constructor.
      - rewrite in_app_iff. intros [C|C]; [contradiction|]. apply (D x); [left; reflexivity|assumption].
      - apply IH1; [assumption| |assumption]. intros q Hq. apply D. right. assumption. }
    rewrite NoDup_nth_error in ND. apply ND; [apply nth_error_Some; congruence|congruence].
  - apply nth_error_None in E. rewrite length_all_idx in E. lia.
Qed.

Section Xgcm.
  Variables (tile : string) (nf n : nat).
  Notation size := (size tile nf n).
  Notation in_grid := (in_grid tile nf n).
  Notation number := (number tile nf n).
  Notation labelled := (labelled tile nf n).

  Lemma number_lt ds s : in_grid ds s -> number ds s < prod (map size ds).
  Proof. intros H. apply ravel_lt. apply valid_map. assumption. Qed.

  Lemma at_cell {A} ds (a : nd A) s : labelled ds a -> at_ a (map s ds) = nth_error (elems a) (number ds s).
  Proof. intros [E _]. unfold at_, S_xgcm.number. rewrite E. reflexivity. Qed.

  Lemma cell_of ds k : NoDup ds -> k < prod (map size ds) -> exists s, in_grid ds s /\ number ds s = k.
  Proof.
    intros ND H. destruct (ravel_inv _ _ H) as (ix & Hv & E). destruct (valid_cell _ _ _ ND Hv) as (s & -> & Hs).
    exists s. split; [exact Hs|exact E].
  Qed.

  Lemma transpose_ok ds ds' (r : nd Z) : NoDup ds -> Permutation ds ds' -> labelled ds' r ->
    exists r', transpose ds (ds', r) = (ds, r') /\ labelled ds r'
      /\ forall s, in_grid ds s -> at_ r' (map s ds) = at_ r (map s ds').
  Proof.
    intros ND HP [Es Wr]. eexists. split; [reflexivity|]. rewrite Es.
    assert (Esh : map (entry ds' (map size ds')) ds = map size ds).
    { apply map_ext_in. intros nm Hn. apply entry_map. eapply Permutation_in; eauto. }
    rewrite Esh. split; [split; [reflexivity|apply build_wf]|].
    intros s Hs. rewrite build_at by (apply valid_map; assumption).
    assert (Eix : map (entry ds (map s ds)) ds' = map s ds').
    { apply map_ext_in. intros nm Hn. apply entry_map. eapply Permutation_in; [apply Permutation_sym; exact HP|assumption]. }
    rewrite Eix. symmetry. apply getd_at; [assumption|]. rewrite Es. apply valid_map. intros nm Hn. apply Hs.
    eapply Permutation_in; [apply Permutation_sym; exact HP|assumption].
  Qed.

  Lemma good_dims_shape dims : good_dims tile dims -> exists t, index_of tile dims = Some t /\ t < 3 /\ length dims = 3
    /\ upd [n; n; n] t nf = map size dims /\ prod (map size dims) = nf * n * n
    /\ index_of "i" dims <> None /\ index_of "j" dims <> None.
  Proof.
    intros [HP ND]. assert (L : length dims = 3) by (apply Permutation_length in HP; assumption).
    assert (It : In tile dims) by (eapply Permutation_in; [apply Permutation_sym; exact HP|left; reflexivity]).
    assert (Ii : In "i"%string dims) by (eapply Permutation_in; [apply Permutation_sym; exact HP|right; left; reflexivity]).
    assert (Ij : In "j"%string dims) by (eapply Permutation_in; [apply Permutation_sym; exact HP|right; right; left; reflexivity]).
    destruct (index_of_in _ _ It) as (t & Et & Ht). exists t. split; [assumption|].
    assert (Ht3 : t < 3) by (rewrite <- L; apply nth_error_Some; congruence). split; [assumption|]. split; [assumption|].
    destruct (index_of_in _ _ Ii) as (ti & Ei & _). destruct (index_of_in _ _ Ij) as (tj & Ej & _).
    assert (Eu : upd [n; n; n] t nf = map size dims).
    { destruct dims as [|d0 [|d1 [|d2 [|? ?]]]]; simpl in L; try lia.
      inversion ND as [|? ? N0 ND1]; subst. inversion ND1 as [|? ? N1 ND2]; subst.
      unfold S_xgcm.size. simpl in *.
      destruct t as [|[|[|t]]]; simpl in Ht; try lia; injection Ht as <-; simpl; rewrite String.eqb_refl;
        repeat match goal with |- context [String.eqb ?x ?y] => destruct (String.eqb_spec x y) end; subst; simpl in *; tauto || reflexivity. }
    split; [assumption|]. split; [rewrite <- Eu; destruct t as [|[|[|t]]]; simpl; lia|]. split; congruence.
  Qed.

  Lemma labelled_idx dims : good_dims tile dims ->
    labelled dims (mk_nd (map size dims) (map Z.of_nat (seq 0 (nf * n * n)))).
  Proof.
    intros H. destruct (good_dims_shape dims H) as (t & _ & _ & _ & _ & E & _).
    split; [reflexivity|]. unfold wf; simpl. rewrite map_length, seq_length, E. reflexivity.
  Qed.

  Lemma at_idx dims s : good_dims tile dims -> in_grid dims s ->
    at_ (mk_nd (map size dims) (map Z.of_nat (seq 0 (nf * n * n)))) (map s dims) = Some (Z.of_nat (number dims s)).
  Proof.
    intros H Hs. rewrite (at_cell dims) by (apply labelled_idx; assumption). simpl elems.
    pose proof (number_lt dims s Hs) as P. destruct (good_dims_shape dims H) as (t & _ & _ & _ & _ & E & _). rewrite E in P.
    rewrite nth_error_map. rewrite (nth_error_nth' _ 0) by (rewrite seq_length; assumption). rewrite seq_nth by assumption. reflexivity.
  Qed.

  Variable ufunc : axis -> bool -> larr Z -> larr Z.
  Variable nb : axis -> bool -> cell -> option cell.
  Hypothesis Hsh : shifts tile nf n ufunc nb.

  (** value stored for a cell: the number of its neighbour, or -1 *)
  Definition nbr (dims : list string) ax right (s : cell) : Z :=
    match nb ax right s with Some s' => Z.of_nat (number dims s') | None => (-1)%Z end.

  Lemma im1_jm1_ok dims xr yr : good_dims tile dims -> keeps_order ufunc AxX xr -> (yr = true -> keeps_order ufunc AxY true) ->
    exists im1 jm1, build_im1_jm1 ufunc tile nf n dims xr yr = Ok (im1, jm1)
      /\ labelled dims im1 /\ labelled dims jm1
      /\ forall s, in_grid dims s -> at_ im1 (map s dims) = Some (nbr dims AxX xr s) /\ at_ jm1 (map s dims) = Some (nbr dims AxY yr s).
  Proof.
    intros Hd Kx Ky. destruct (good_dims_shape dims Hd) as (t & Et & Ht & L & Eu & Ep & Ni & Nj).
    unfold build_im1_jm1. rewrite Et. destruct (index_of "i" dims); [|congruence]. destruct (index_of "j" dims); [|congruence].
    replace (Nat.ltb t 3) with true by (symmetry; apply Nat.ltb_lt; assumption). rewrite L. simpl (negb _). cbv iota. rewrite Eu.
    set (idx := mk_nd (map size dims) (map Z.of_nat (seq 0 (nf * n * n)))).
    pose proof (labelled_idx dims Hd) as Lidx. fold idx in Lidx. destruct Hd as [HPd NDd].
    assert (V : forall ax right, exists ds' r, ufunc ax right (dims, idx) = (ds', r) /\ Permutation dims ds' /\ labelled ds' r
      /\ forall s, in_grid dims s -> at_ r (map s ds') = Some (nbr dims ax right s)).
    { intros ax right. destruct (Hsh ax right dims idx (conj HPd NDd) Lidx) as (ds' & r & E & HP & Lr & Hr).
      exists ds', r. split; [assumption|]. split; [assumption|]. split; [assumption|]. intros s Hs. specialize (Hr s Hs). unfold nbr.
      destruct (nb ax right s) as [s'|]; [|assumption]. destruct Hr as [Hg ->]. apply at_idx; [split; assumption|assumption]. }
    destruct (V AxX xr) as (dx & rx & Ex & HPx & Lx & Vx).
    assert (dx = dims) by (specialize (Kx dims idx); rewrite Ex in Kx; exact Kx). subst dx.
    rewrite Ex. cbn [snd]. destruct yr.
    - destruct (V AxY true) as (dy & ry & Ey & HPy & Ly & Vy).
      assert (dy = dims) by (specialize (Ky eq_refl dims idx); rewrite Ey in Ky; exact Ky). subst dy.
      rewrite Ey. cbn [snd]. exists rx, ry. split; [reflexivity|]. auto.
    - destruct (V AxY false) as (dy & ry & Ey & HPy & Ly & Vy). rewrite Ey.
      destruct (transpose_ok dims dy ry NDd HPy Ly) as (r' & Er & Lr' & Vr'). rewrite Er. cbn [snd].
      exists rx, r'. split; [reflexivity|]. split; [assumption|]. split; [assumption|]. intros s Hs.
      split; [apply Vx; assumption|]. rewrite Vr' by assumption. apply Vy. assumption.
  Qed.

  Lemma labelled_length {A} dims (a : nd A) : good_dims tile dims -> labelled dims a -> length (elems a) = nf * n * n.
  Proof.
    intros Hd [Es W]. destruct (good_dims_shape dims Hd) as (t & _ & _ & _ & _ & E & _). unfold wf in W. rewrite W, Es. exact E.
  Qed.

  (** positions of the cells that have a neighbour *)
  Lemma has_neighbour dims ax right (a : nd Z) : good_dims tile dims -> labelled dims a ->
    (forall s, in_grid dims s -> at_ a (map s dims) = Some (nbr dims ax right s)) ->
    (forall s s', in_grid dims s -> nb ax right s = Some s' -> in_grid dims s') /\
    forall p, In p (flatnonzero (map (fun x => (0 <=? x)%Z) (elems a))) <->
      exists s s', in_grid dims s /\ nb ax right s = Some s' /\ p = number dims s
        /\ nth_error (elems a) p = Some (Z.of_nat (number dims s')).
  Proof.
    intros Hd La Ha. split.
    { intros s s' Hs E. destruct (Hsh ax right dims _ Hd (labelled_idx dims Hd)) as (ds' & r & _ & _ & _ & Hr).
      specialize (Hr s Hs). rewrite E in Hr. apply Hr. }
    intros p. rewrite in_flatnonzero, nth_error_map. split.
    - intros E. destruct (nth_error (elems a) p) as [z|] eqn:Ez; [|discriminate]. simpl in E. injection E as E. apply Z.leb_le in E.
      assert (Hp : p < prod (map size dims)).
      { destruct La as [Es W]. unfold wf in W. rewrite <- Es, <- W. apply nth_error_Some. congruence. }
      destruct (cell_of dims p (proj2 Hd) Hp) as (s & Hs & En). specialize (Ha s Hs). rewrite (at_cell dims _ s La), En, Ez in Ha.
      injection Ha as Ha. unfold nbr in Ha. destruct (nb ax right s) as [s'|] eqn:Es; [|lia].
      exists s, s'. rewrite Ha. auto.
    - intros (s & s' & Hs & Es & -> & ->). simpl. f_equal. apply Z.leb_le. lia.
  Qed.

  Context {F : Type} {Nm : Num F}.

  Lemma np_empty_double {A} (junk : list A) N : 2 * N <= length junk -> np_empty junk (Z.of_nat N * 2) = Ok (firstn (N + N) junk).
  Proof. intros H. rewrite np_empty_ok by lia. do 2 f_equal. lia. Qed.

  Lemma half_select (g1 g2 : list bool) {A} (x1 x2 : list A) N k : length g1 = N -> length g2 = N -> length x1 = N -> length x2 = N ->
    nth_error (select (g1 ++ g2) (x1 ++ x2)) k =
      if Nat.ltb k (length (flatnonzero g1))
      then match nth_error (flatnonzero g1) k with Some p => nth_error x1 p | None => None end
      else match nth_error (flatnonzero g2) (k - length (flatnonzero g1)) with Some p => nth_error x2 p | None => None end.
  Proof.
    intros G1 G2 X1 X2. rewrite select_app by lia.
    pose proof (length_select g1 x1 ltac:(lia)) as L.
    destruct (Nat.ltb_spec k (length (flatnonzero g1))).
    - rewrite nth_error_app1 by lia. apply select_nth. lia.
    - rewrite nth_error_app2 by lia. rewrite L. apply select_nth. lia.
  Qed.

  Lemma nth_seq0 N p : p < N -> nth_error (seq 0 N) p = Some p.
  Proof. intros H. rewrite (nth_error_nth' _ 0) by (rewrite seq_length; assumption). rewrite seq_nth by assumption. reflexivity. Qed.

  Definition geq0 (a : nd Z) : list bool := map (fun x => (0 <=? x)%Z) (elems a).

  Lemma xgcm_grid_eq junk junkd junkp dims xsh ysh xr yr d1 d2 d3 d4 (dxC dyC dyG dxG : nd F) im1 jm1 :
    good_dims tile dims -> side xsh = Ok xr -> side ysh = Ok yr -> names_match d1 d2 d3 d4 ->
    labelled dims dxC -> labelled dims dyC -> labelled dims dyG -> labelled dims dxG ->
    2 * (nf * n * n) <= length junk -> 2 * (nf * n * n) <= length junkd -> 2 * (nf * n * n) <= length junkp ->
    build_im1_jm1 ufunc tile nf n dims xr yr = Ok (im1, jm1) -> labelled dims im1 -> labelled dims jm1 ->
    xgcm_grid ufunc tile nf junk junkd junkp n dims xsh ysh (Array d1 dxC) (Array d2 dyC) (Array d3 dyG) (Array d4 dxG)
    = Ok ((select (geq0 im1 ++ geq0 jm1) (seq 0 (nf * n * n) ++ seq 0 (nf * n * n)),
           select (geq0 im1 ++ geq0 jm1) (elems im1 ++ elems jm1)),
          select (geq0 im1 ++ geq0 jm1) (elems dyC ++ elems dxC), select (geq0 im1 ++ geq0 jm1) (elems dxG ++ elems dyG)).
  Proof.
    intros Hd Sx Sy Hnm L1 L2 L3 L4 J1 J2 J3 E Li Lj.
    pose proof (labelled_length dims im1 Hd Li) as Ni. pose proof (labelled_length dims jm1 Hd Lj) as Nj.
    set (N := nf * n * n) in *.
    pose proof (labelled_length dims _ Hd L1) as N1. pose proof (labelled_length dims _ Hd L2) as N2.
    pose proof (labelled_length dims _ Hd L3) as N3. pose proof (labelled_length dims _ Hd L4) as N4. fold N in N1, N2, N3, N4.
    unfold xgcm_grid. rewrite Sx. cbn [bind]. rewrite Sy. cbn [bind].
    replace (match d1, d2, d3, d4 with Some _, Some _, Some _, Some _ => _ | _, _, _, _ => _ end) with (@Ok unit tt).
    2:{ destruct d1 as [e1|], d2 as [e2|], d3 as [e3|], d4 as [e4|]; try reflexivity. simpl in Hnm. destruct Hnm as [-> ->].
        unfold same_names. destruct (list_eq_dec string_dec e3 e3); [|congruence]. destruct (list_eq_dec string_dec e4 e4); [reflexivity|congruence]. }
    cbn [bind]. rewrite E. cbn [bind]. rewrite Ni. rewrite !np_empty_double by assumption. cbn [bind flat].
    repeat (first [rewrite fill_upto by (assumption || lia) | rewrite fill_from by (assumption || lia)]; cbn [bind]).
    rewrite map_app. reflexivity.
  Qed.

  Lemma xgcm_grid_ok junk junkd junkp dims xsh ysh xr yr d1 d2 d3 d4 (dxC dyC dyG dxG : nd F) :
    good_dims tile dims -> side xsh = Ok xr -> side ysh = Ok yr ->
    keeps_order ufunc AxX xr -> (yr = true -> keeps_order ufunc AxY true) ->
    names_match d1 d2 d3 d4 ->
    labelled dims dxC -> labelled dims dyC -> labelled dims dyG -> labelled dims dxG ->
    2 * (nf * n * n) <= length junk -> 2 * (nf * n * n) <= length junkd -> 2 * (nf * n * n) <= length junkp ->
    exists a b dist distperp Ni,
      xgcm_grid ufunc tile nf junk junkd junkp n dims xsh ysh (Array d1 dxC) (Array d2 dyC) (Array d3 dyG) (Array d4 dxG)
        = Ok ((a, b), dist, distperp)
      /\ length b = length a /\ length dist = length a /\ length distperp = length a
      /\ (forall k x y, nth_error a k = Some x -> nth_error b k = Some y ->
            exists s s', in_grid dims s /\ in_grid dims s' /\ x = number dims s /\ y = Z.of_nat (number dims s')
              /\ if Nat.ltb k Ni
                 then nb AxX xr s = Some s' /\ nth_error dist k = at_ dyC (map s dims) /\ nth_error distperp k = at_ dxG (map s dims)
                 else nb AxY yr s = Some s' /\ nth_error dist k = at_ dxC (map s dims) /\ nth_error distperp k = at_ dyG (map s dims))
      /\ (forall s s', in_grid dims s -> nb AxX xr s = Some s' ->
            exists k, k < Ni /\ nth_error a k = Some (number dims s) /\ nth_error b k = Some (Z.of_nat (number dims s')))
      /\ (forall s s', in_grid dims s -> nb AxY yr s = Some s' ->
            exists k, Ni <= k /\ nth_error a k = Some (number dims s) /\ nth_error b k = Some (Z.of_nat (number dims s'))).
  Proof.
    intros Hd Sx Sy Kx Ky Hnm L1 L2 L3 L4 J1 J2 J3.
    destruct (im1_jm1_ok dims xr yr Hd Kx Ky) as (im1 & jm1 & E & Li & Lj & V).
    pose proof (labelled_length dims im1 Hd Li) as Ni. pose proof (labelled_length dims jm1 Hd Lj) as Nj.
    set (N := nf * n * n) in *.
    pose proof (labelled_length dims _ Hd L1) as N1. pose proof (labelled_length dims _ Hd L2) as N2.
    pose proof (labelled_length dims _ Hd L3) as N3. pose proof (labelled_length dims _ Hd L4) as N4. fold N in N1, N2, N3, N4.
    set (g1 := map (fun x => (0 <=? x)%Z) (elems im1)). set (g2 := map (fun x => (0 <=? x)%Z) (elems jm1)).
    exists (select (g1 ++ g2) (seq 0 N ++ seq 0 N)), (select (g1 ++ g2) (elems im1 ++ elems jm1)),
           (select (g1 ++ g2) (elems dyC ++ elems dxC)), (select (g1 ++ g2) (elems dxG ++ elems dyG)), (length (flatnonzero g1)).
    assert (G1 : length g1 = N) by (unfold g1; rewrite map_length; assumption).
    assert (G2 : length g2 = N) by (unfold g2; rewrite map_length; assumption).
    split.
    { unfold g1, g2. apply (xgcm_grid_eq _ _ _ _ _ _ xr yr); assumption. }
    assert (LS : forall A (x1 x2 : list A), length x1 = N -> length x2 = N ->
      length (select (g1 ++ g2) (x1 ++ x2)) = length (flatnonzero (g1 ++ g2))).
    { intros A x1 x2 H1 H2. apply length_select. rewrite !app_length. lia. }
    assert (Ls : length (seq 0 N) = N) by apply seq_length.
    split; [rewrite !LS; auto|]. split; [rewrite !LS; auto|]. split; [rewrite !LS; auto|].
    destruct (has_neighbour dims AxX xr im1 Hd Li (fun s Hs => proj1 (V s Hs))) as [Rx Hx]. fold g1 in Hx.
    destruct (has_neighbour dims AxY yr jm1 Hd Lj (fun s Hs => proj2 (V s Hs))) as [Ry Hy]. fold g2 in Hy.
    split; [|split].
    - intros k x y Ha Hb. rewrite (half_select g1 g2 _ _ N) in Ha by assumption. rewrite (half_select g1 g2 _ _ N) in Hb by assumption.
      rewrite !(half_select g1 g2 _ _ N) by assumption.
      destruct (Nat.ltb_spec k (length (flatnonzero g1))) as [Hk|Hk].
      + destruct (nth_error (flatnonzero g1) k) as [p|] eqn:Ep; [|discriminate].
        destruct (proj1 (Hx p) (nth_error_In _ _ Ep)) as (s & s' & Hs & Es & -> & Eb).
        pose proof (number_lt dims s Hs) as P. exists s, s'. split; [assumption|]. split; [eauto|].
        rewrite nth_seq0 in Ha by (destruct (good_dims_shape dims Hd) as (t & _ & _ & _ & _ & Epd & _); rewrite Epd in P; exact P).
        split; [congruence|]. split; [congruence|]. split; [assumption|]. rewrite !(at_cell dims) by assumption. auto.
      + destruct (nth_error (flatnonzero g2) (k - length (flatnonzero g1))) as [p|] eqn:Ep; [|discriminate].
        destruct (proj1 (Hy p) (nth_error_In _ _ Ep)) as (s & s' & Hs & Es & -> & Eb).
        pose proof (number_lt dims s Hs) as P. exists s, s'. split; [assumption|]. split; [eauto|].
        rewrite nth_seq0 in Ha by (destruct (good_dims_shape dims Hd) as (t & _ & _ & _ & _ & Epd & _); rewrite Epd in P; exact P).
        split; [congruence|]. split; [congruence|]. split; [assumption|]. rewrite !(at_cell dims) by assumption. auto.
    - intros s s' Hs Es. assert (In (number dims s) (flatnonzero g1)) as Hin.
      { apply Hx. exists s, s'. split; [assumption|]. split; [assumption|]. split; [reflexivity|].
        rewrite <- (at_cell dims im1 s Li), (proj1 (V s Hs)). unfold nbr. rewrite Es. reflexivity. }
      apply In_nth_error in Hin as [k Hk]. assert (k < length (flatnonzero g1)) by (apply nth_error_Some; congruence).
      exists k. split; [assumption|]. rewrite !(half_select g1 g2 _ _ N) by assumption.
      destruct (Nat.ltb_spec k (length (flatnonzero g1))); [|lia]. rewrite Hk.
      pose proof (number_lt dims s Hs) as P. destruct (good_dims_shape dims Hd) as (t & _ & _ & _ & _ & Epd & _). rewrite Epd in P.
      rewrite nth_seq0 by exact P. split; [reflexivity|].
      rewrite <- (at_cell dims im1 s Li), (proj1 (V s Hs)). unfold nbr. rewrite Es. reflexivity.
    - intros s s' Hs Es. assert (In (number dims s) (flatnonzero g2)) as Hin.
      { apply Hy. exists s, s'. split; [assumption|]. split; [assumption|]. split; [reflexivity|].
        rewrite <- (at_cell dims jm1 s Lj), (proj2 (V s Hs)). unfold nbr. rewrite Es. reflexivity. }
      apply In_nth_error in Hin as [k Hk].
      exists (length (flatnonzero g1) + k). split; [lia|]. rewrite !(half_select g1 g2 _ _ N) by assumption.
      destruct (Nat.ltb_spec (length (flatnonzero g1) + k) (length (flatnonzero g1))); [lia|].
      replace (length (flatnonzero g1) + k - length (flatnonzero g1)) with k by lia. rewrite Hk.
      pose proof (number_lt dims s Hs) as P. destruct (good_dims_shape dims Hd) as (t & _ & _ & _ & _ & Epd & _). rewrite Epd in P.
      rewrite nth_seq0 by exact P. split; [reflexivity|].
      rewrite <- (at_cell dims jm1 s Lj), (proj2 (V s Hs)). unfold nbr. rewrite Es. reflexivity.
  Qed.

  (** the default metrics are floats *)
  Lemma xgcm_scalar_raises junk junkd junkp dims xsh ysh xr yr x (dxC dyG dxG : metric F) :
    good_dims tile dims -> side xsh = Ok xr -> side ysh = Ok yr ->
    keeps_order ufunc AxX xr -> (yr = true -> keeps_order ufunc AxY true) ->
    2 * (nf * n * n) <= length junk ->
    xgcm_grid ufunc tile nf junk junkd junkp n dims xsh ysh dxC (Scalar x) dyG dxG = Err AttributeError.
  Proof.
    intros Hd Sx Sy Kx Ky J1.
    destruct (im1_jm1_ok dims xr yr Hd Kx Ky) as (im1 & jm1 & E & Li & Lj & V).
    pose proof (labelled_length dims im1 Hd Li) as Ni. pose proof (labelled_length dims jm1 Hd Lj) as Nj.
    unfold xgcm_grid. rewrite Sx. cbn [bind]. rewrite Sy. cbn [bind].
    replace (match dxC with Scalar _ => Ok tt | Array _ _ => _ end) with (@Ok unit tt) by (destruct dxC as [|[]]; reflexivity).
    cbn [bind]. rewrite E. cbn [bind]. rewrite Ni. rewrite np_empty_double by assumption. cbn [bind].
    rewrite fill_upto by (assumption || lia). cbn [bind]. rewrite fill_from by (assumption || lia). cbn [bind].
    unfold np_empty. destruct (Z.ltb_spec (Z.of_nat (nf * n * n) * 2) 0); [lia|]. reflexivity.
  Qed.

  (** edgedata_to_maps puts each value at the cell of its edge *)
  Lemma xgcm_maps_ok junk junkd junkp dims xsh ysh xr yr d1 d2 d3 d4 (dxC dyC dyG dxG : nd F) (ed : list F) a b dist distperp :
    good_dims tile dims -> side xsh = Ok xr -> side ysh = Ok yr ->
    keeps_order ufunc AxX xr -> (yr = true -> keeps_order ufunc AxY true) ->
    names_match d1 d2 d3 d4 ->
    labelled dims dxC -> labelled dims dyC -> labelled dims dyG -> labelled dims dxG ->
    2 * (nf * n * n) <= length junk -> 2 * (nf * n * n) <= length junkd -> 2 * (nf * n * n) <= length junkp ->
    xgcm_grid ufunc tile nf junk junkd junkp n dims xsh ysh (Array d1 dxC) (Array d2 dyC) (Array d3 dyG) (Array d4 dxG)
        = Ok ((a, b), dist, distperp) ->
    length ed = length a ->
    exists Ni Fi Fj, xgcm_maps ufunc tile nf ed n dims xsh ysh = Ok (Fi, Fj)
      /\ labelled dims Fi /\ labelled dims Fj
      /\ forall s, in_grid dims s ->
           match nb AxX xr s with
           | Some s' => exists k, k < Ni /\ nth_error a k = Some (number dims s) /\ nth_error b k = Some (Z.of_nat (number dims s'))
                          /\ at_ Fi (map s dims) = nth_error ed k
           | None => at_ Fi (map s dims) = Some nan
           end
           /\ match nb AxY yr s with
           | Some s' => exists k, Ni <= k /\ nth_error a k = Some (number dims s) /\ nth_error b k = Some (Z.of_nat (number dims s'))
                          /\ at_ Fj (map s dims) = nth_error ed k
           | None => at_ Fj (map s dims) = Some nan
           end.
  Proof.
    intros Hd Sx Sy Kx Ky Hnm L1 L2 L3 L4 J1 J2 J3 EG Led.
    destruct (im1_jm1_ok dims xr yr Hd Kx Ky) as (im1 & jm1 & E & Li & Lj & V).
    rewrite (xgcm_grid_eq _ _ _ _ _ _ xr yr _ _ _ _ _ _ _ _ im1 jm1) in EG by assumption.
    injection EG as <- <- _ _.
    pose proof (labelled_length dims im1 Hd Li) as Ni. pose proof (labelled_length dims jm1 Hd Lj) as Nj.
    destruct (good_dims_shape dims Hd) as (t & _ & _ & _ & _ & Epd & _).
    set (N := nf * n * n) in *. set (g1 := geq0 im1) in *. set (g2 := geq0 jm1) in *.
    assert (G1 : length g1 = N) by (unfold g1, geq0; rewrite map_length; assumption).
    assert (G2 : length g2 = N) by (unfold g2, geq0; rewrite map_length; assumption).
    destruct (has_neighbour dims AxX xr im1 Hd Li (fun s Hs => proj1 (V s Hs))) as [Rx Hx]. fold (geq0 im1) in Hx. fold g1 in Hx.
    destruct (has_neighbour dims AxY yr jm1 Hd Lj (fun s Hs => proj2 (V s Hs))) as [Ry Hy]. fold (geq0 jm1) in Hy. fold g2 in Hy.
    rewrite length_select, flatnonzero_app, app_length, map_length in Led by (rewrite !app_length, !seq_length; lia).
    destruct (put_ok (nan : F) (flatnonzero g1) (firstn (length (flatnonzero g1)) ed) N) as (Fi & EFi & LFi & Pi & Qi).
    { rewrite firstn_length. lia. } { apply nodup_flatnonzero. }
    { intros p Hp. apply in_flatnonzero in Hp. rewrite <- G1. apply nth_error_Some. congruence. }
    destruct (put_ok (nan : F) (flatnonzero g2) (skipn (length (flatnonzero g1)) ed) N) as (Fj & EFj & LFj & Pj & Qj).
    { rewrite skipn_length. lia. } { apply nodup_flatnonzero. }
    { intros p Hp. apply in_flatnonzero in Hp. rewrite <- G2. apply nth_error_Some. congruence. }
    exists (length (flatnonzero g1)), (mk_nd (shape im1) Fi), (mk_nd (shape im1) Fj).
    assert (Lab : forall v : list F, length v = N -> labelled dims (mk_nd (shape im1) v)).
    { intros v Hv. destruct Li as [Es W]. split; [exact Es|]. unfold wf in *. simpl. rewrite Es, Epd. exact Hv. }
    split; [|split; [auto|split; [auto|]]].
    - unfold xgcm_maps.
      destruct xsh as [|c xsh]; [discriminate|]. destruct ysh as [|e ysh]; [discriminate|].
      assert (Ec : forall c' r x, side (String c' r) = Ok x -> negb (Ascii.eqb c' "l"%char) = x).
      { intros c' r x. simpl. destruct (Ascii.eqb c' "l"%char); [intros Q; injection Q as <-; reflexivity|].
        destruct (Ascii.eqb c' "r"%char); [intros Q; injection Q as <-; reflexivity|discriminate]. }
      rewrite (Ec _ _ _ Sx), (Ec _ _ _ Sy), E. cbn [bind]. rewrite Ni. fold (geq0 im1). fold (geq0 jm1). fold g1. fold g2.
      unfold upto, from. rewrite bound_nonneg by lia. rewrite Nat2Z.id. rewrite EFi. cbn [bind]. rewrite EFj. reflexivity.
    - intros s Hs. pose proof (number_lt dims s Hs) as P. rewrite Epd in P.
      rewrite !(at_cell dims) by auto. simpl elems.
      assert (Lq : length (seq 0 N) = N) by apply seq_length. split.
      + destruct (nb AxX xr s) as [s'|] eqn:Es.
        * assert (In (number dims s) (flatnonzero g1)) as Hin.
          { apply Hx. exists s, s'. split; [assumption|]. split; [assumption|]. split; [reflexivity|].
            rewrite <- (at_cell dims im1 s Li), (proj1 (V s Hs)). unfold nbr. rewrite Es. reflexivity. }
          apply In_nth_error in Hin as [k Hk]. assert (Hlt : k < length (flatnonzero g1)) by (apply nth_error_Some; congruence).
          exists k. split; [assumption|]. rewrite !(half_select g1 g2 _ _ N) by assumption.
          destruct (Nat.ltb_spec k (length (flatnonzero g1))); [|lia]. rewrite Hk.
          rewrite nth_seq0 by exact P. split; [reflexivity|]. split.
          -- rewrite <- (at_cell dims im1 s Li), (proj1 (V s Hs)). unfold nbr. rewrite Es. reflexivity.
          -- rewrite (Pi _ _ Hk). apply nth_error_firstn. assumption.
        * apply Qi; [exact P|]. intros Hin. apply Hx in Hin as (s2 & s2' & Hs2 & Es2 & En & Eb).
          rewrite <- (at_cell dims im1 s Li), (proj1 (V s Hs)) in Eb. unfold nbr in Eb. rewrite Es in Eb. injection Eb as Eb. lia.
      + destruct (nb AxY yr s) as [s'|] eqn:Es.
        * assert (In (number dims s) (flatnonzero g2)) as Hin.
          { apply Hy. exists s, s'. split; [assumption|]. split; [assumption|]. split; [reflexivity|].
            rewrite <- (at_cell dims jm1 s Lj), (proj2 (V s Hs)). unfold nbr. rewrite Es. reflexivity. }
          apply In_nth_error in Hin as [k Hk].
          exists (length (flatnonzero g1) + k). split; [lia|]. rewrite !(half_select g1 g2 _ _ N) by assumption.
          destruct (Nat.ltb_spec (length (flatnonzero g1) + k) (length (flatnonzero g1))); [lia|].
          replace (length (flatnonzero g1) + k - length (flatnonzero g1)) with k by lia. rewrite Hk.
          rewrite nth_seq0 by exact P. split; [reflexivity|]. split.
          -- rewrite <- (at_cell dims jm1 s Lj), (proj2 (V s Hs)). unfold nbr. rewrite Es. reflexivity.
          -- rewrite (Pj _ _ Hk). apply nth_error_skipn.
        * apply Qj; [exact P|]. intros Hin. apply Hy in Hin as (s2 & s2' & Hs2 & Es2 & En & Eb).
          rewrite <- (at_cell dims jm1 s Lj), (proj2 (V s Hs)) in Eb. unfold nbr in Eb. rewrite Es in Eb. injection Eb as Eb. lia.
  Qed.
End Xgcm.
