(** * Model of neutralocean/ppinterp: lib.py, ppinterp.py, linear.py, pchip.py *)
From Coq Require Import ZArith Bool List.
From Verif Require Import Num Res Arr M_numpy.
Import ListNotations.
Local Open Scope num_scope.

Section Ppinterp.
  Context {F : Type} {N : Num F}.

  (** [for i in l: if p(i): return i] / [break]; [dflt] when no hit *)
  Fixpoint first_index (l : list nat) (p : nat -> res bool) (dflt : nat) : res nat :=
    match l with
    | [] => Ok dflt
    | i :: r => let! b := p i in if b then Ok i else first_index r p dflt
    end.

  (** ** lib.py *)

  (** lib.py:6-17.  [junk] stands for whatever the out-of-range read x[x.size]
      returns and for the uninitialised contents of np.empty; d[-1] on an empty
      array writes out of bounds. *)
  Definition diff_1d_samesize (junk : F) (x : list F) : res (list F) :=
    let n := length x in
    let! d := for_range 0 n
      (fun i d => let! xi := get x i in set d i (nth (S i) x junk - xi))
      (repeat junk n) in
    match n with
    | O => Err OutOfBounds
    | S m => set d m nan
    end.

  (** lib.py:21-59 *)
  Definition valid_range_1 (X : list F) : res (nat * nat) :=
    let n := length X in
    let! k := first_index (seq 0 n) (fun i => let! x := get X i in Ok (isfinite x)) n in
    let! K := first_index (seq (k + 1) (n - (k + 1)))
                (fun i => let! x := get X i in Ok (isnan x)) n in
    Ok (k, K).

  (** lib.py:93-133 *)
  Definition valid_range_1_two (X Y : list F) : res (nat * nat) :=
    let n := length X in
    let! k := first_index (seq 0 n)
      (fun i => let! x := get X i in
                if isfinite x then let! y := get Y i in Ok (isfinite y) else Ok false) n in
    let! K := first_index (seq (k + 1) (n - (k + 1)))
      (fun i => let! x := get X i in
                if isnan x then Ok true else let! y := get Y i in Ok (isnan y)) n in
    Ok (k, K).

  (** ** ppinterp.py *)

  (** ppinterp.py:20-69.  d is a non-negative int. *)
  Definition pval (x : F) (C : list F) (d : nat) : F :=
    let order := length C in
    match d with
    | O => fold_left (fun y c => y * x + c) C (lit 0 0)
    | S _ =>
        fold_left
          (fun y o =>
             let p := fold_left (fun p a => p * of_nat a) (seq (order - o - d) d) (lit 1 0) in
             y * x + nth o C nan * p)
          (seq 0 (order - d)) (lit 0 0)
    end.

  (** The condition and interval search shared by lines 104-145, 224-232,
      246-254, 273-278: [None] when NaN is returned, else the interval i. *)
  Definition locate (x : F) (X Y : list F) : res (option nat) :=
    let! kK := valid_range_1_two X Y in
    let (k, K) := kK in
    if Nat.leb (K - 1) k || isnan x then Ok None
    else
      let! Xk := get X k in
      if x <? Xk then Ok None
      else
        let! XK := get X (K - 1) in
        if XK <? x then Ok None
        else Ok (Some (Nat.max k (searchsorted (slice X k K) x + k - 1))).

  (** Yppc[:, -1] *)
  Definition last_col (C : list (list F)) : list F := map (fun row => last row nan) C.

  (** ppinterp.py:73-148 *)
  Definition ppval_1 (x : F) (X : list F) (Yppc : list (list F)) (d : nat) : res F :=
    let! o := locate x X (last_col Yppc) in
    match o with
    | None => Ok nan
    | Some i =>
        let! Xi := get X i in
        let! c := get Yppc i in
        Ok (pval (x - Xi) c d)
    end.

  (** ppinterp.py:263-281 *)
  Definition ppval_1_two (x : F) (X : list F) (Yppc Zppc : list (list F)) (d : nat)
    : res (F * F) :=
    let! o := locate x X (last_col Yppc) in
    match o with
    | None => Ok (nan, nan)
    | Some i =>
        let! Xi := get X i in
        let! cy := get Yppc i in
        let! cz := get Zppc i in
        Ok (pval (x - Xi) cy d, pval (x - Xi) cz d)
    end.

  (** The search of lines 154-157 and 287-290 *)
  Definition locate_nonan (x : F) (X : list F) : res (option nat) :=
    if isnan x then Ok None
    else
      let! X0 := get X 0 in
      if x <? X0 then Ok None
      else
        let! X1 := get X (length X - 1) in
        if X1 <? x then Ok None
        else Ok (Some (Nat.max 0 (searchsorted X x - 1))).

  (** ppinterp.py:152-160 *)
  Definition ppval_1_nonan (x : F) (X : list F) (Yppc : list (list F)) (d : nat) : res F :=
    let! o := locate_nonan x X in
    match o with
    | None => Ok nan
    | Some i =>
        let! Xi := get X i in
        let! c := get Yppc i in
        Ok (pval (x - Xi) c d)
    end.

  (** ppinterp.py:285-293 *)
  Definition ppval_1_nonan_two (x : F) (X : list F) (Yppc Zppc : list (list F)) (d : nat)
    : res (F * F) :=
    let! o := locate_nonan x X in
    match o with
    | None => Ok (nan, nan)
    | Some i =>
        let! Xi := get X i in
        let! cy := get Yppc i in
        let! cz := get Zppc i in
        Ok (pval (x - Xi) cy d, pval (x - Xi) cz d)
    end.

  (** ppinterp.py:218-236; f(X, Y, i) gives the coefficients of piece i *)
  Definition ppinterp_1 (f : list F -> list F -> nat -> res (list F))
    (x : F) (X Y : list F) (d : nat) : res F :=
    let! o := locate x X Y in
    match o with
    | None => Ok nan
    | Some i =>
        let! c := f X Y i in
        let! Xi := get X i in
        Ok (pval (x - Xi) c d)
    end.

  (** ppinterp.py:240-259 *)
  Definition ppinterp_1_two (f : list F -> list F -> nat -> res (list F))
    (x : F) (X Y Z : list F) (d : nat) : res (F * F) :=
    let! o := locate x X Y in
    match o with
    | None => Ok (nan, nan)
    | Some i =>
        let! cy := f X Y i in
        let! cz := f X Z i in
        let! Xi := get X i in
        Ok (pval (x - Xi) cy d, pval (x - Xi) cz d)
    end.

  (** ** linear.py *)

  (** linear.py:50-60; array division (IEEE) *)
  Definition linear_coeffs_1 (junk : F) (X Y : list F) : res (list (list F)) :=
    let! dY := diff_1d_samesize junk Y in
    let! dX := diff_1d_samesize junk X in
    Ok (map (fun '(dy, dx, y) => [dy / dx; y]) (combine (combine dY dX) Y)).

  (** linear.py:71-105 *)
  Definition linear_coeffs_i (X Y : list F) (i : nat) : res (list F) :=
    let! Y1 := get Y (i + 1) in
    let! Y0 := get Y i in
    let! X1 := get X (i + 1) in
    let! X0 := get X i in
    let! C1 := sdiv (Y1 - Y0) (X1 - X0) in
    Ok [C1; Y0].

  (** ** pchip.py *)

  (** pchip.py:132-140 and, with the roles of the two intervals mirrored,
      150-158: one-sided three-point slope at an end.  h1, δ1: the interval at
      the end; h2, δ2: the next one. *)
  Definition pchip_end (h1 h2 δ1 δ2 : F) : res F :=
    let! d := sdiv ((lit 2 0 * h1 + h2) * δ1 - h1 * δ2) (h1 + h2) in
    Ok (if negb (sign d =? sign δ1) then lit 0 0
        else if negb (sign δ1 =? sign δ2) && (fabs d >? fabs (lit 3 0 * δ1)) then lit 3 0 * δ1
        else d).

  (** pchip.py:143-148: slope at an interior data site *)
  Definition pchip_mid (h0 h1 δ0 δ1 : F) : res F :=
    if sign δ0 * sign δ1 >? lit 0 0 then
      let w1 := h0 + lit 2 0 * h1 in
      let w2 := lit 2 0 * h0 + h1 in
      let! u := sdiv w1 δ0 in
      let! v := sdiv w2 δ1 in
      sdiv (w1 + w2) (u + v)
    else Ok (lit 0 0).

  (** pchip.py:162-166: coefficients C[i,0:3] from the slopes at both ends *)
  Definition pchip_piece (h δ d0 d1 : F) : res (F * F * F) :=
    let! dzzdx := sdiv (δ - d0) h in
    let! dzdxdx := sdiv (d1 - δ) h in
    let! c3 := sdiv (dzdxdx - dzzdx) h in
    Ok (c3, lit 2 0 * dzzdx - dzdxdx, d0).

  (** pchip.py:132-158: the array d of slopes (length K) *)
  Definition pchip_slopes (h δ : list F) (k K : nat) : res (list F) :=
    let d := repeat (lit 0 0) K in
    let! hk := get h k in let! hk1 := get h (k + 1) in
    let! δk := get δ k in let! δk1 := get δ (k + 1) in
    let! dk := pchip_end hk hk1 δk δk1 in
    let! d := set d k dk in
    let! d := for_range (k + 1) (K - 1)
      (fun i d =>
         let! h0 := get h (i - 1) in let! h1 := get h i in
         let! δ0 := get δ (i - 1) in let! δ1 := get δ i in
         let! di := pchip_mid h0 h1 δ0 δ1 in
         set d i di) d in
    let! ha := get h (K - 2) in let! hb := get h (K - 3) in
    let! δa := get δ (K - 2) in let! δb := get δ (K - 3) in
    let! dK := pchip_end ha hb δa δb in
    set d (K - 1) dK.

  (** pchip.py:107-187.  C is kept as the list of triples C[:, 0:3]; column 3
      (= Y) is appended at the end, as in line 185. *)
  Definition pchip_coeffs_kK (junk : F) (X Y : list F) (k K : nat) : res (list (list F)) :=
    let! h := diff_1d_samesize junk X in
    let! dY := diff_1d_samesize junk Y in
    let δ := map (fun '(dy, hi) => dy / hi) (combine dY h) in
    let nk := length X in
    let C := repeat (nan, nan, nan) nk in
    let! C :=
      if Nat.ltb 2 (K - k) then
        let! d := pchip_slopes h δ k K in
        for_range k (K - 1)
          (fun i C =>
             let! hi := get h i in let! δi := get δ i in
             let! d0 := get d i in let! d1 := get d (i + 1) in
             let! c := pchip_piece hi δi d0 d1 in
             set C i c) C
      else if Nat.eqb (K - k) 2 then
        let! Y1 := get Y (k + 1) in let! Y0 := get Y k in
        let! X1 := get X (k + 1) in let! X0 := get X k in
        let! δ := sdiv (Y1 - Y0) (X1 - X0) in
        set C k (lit 0 0, lit 0 0, δ)
      else Ok C in
    Ok (map (fun '((c3, c2, c1), y) => [c3; c2; c1; y]) (combine C Y)).

  (** pchip.py:78-91 *)
  Definition pchip_coeffs_1 (junk : F) (X Y : list F) : res (list (list F)) :=
    let! kK := valid_range_1_two X Y in
    let (k, K) := kK in
    pchip_coeffs_kK junk X Y k K.

  (** pchip.py:95-103 *)
  Definition pchip_coeffs_1_nonan (junk : F) (X Y : list F) : res (list (list F)) :=
    pchip_coeffs_kK junk X Y 0 (length X).

  (** np.isnan(X[j] + Y[j]), pchip.py:231-232 *)
  Definition nan_at (X Y : list F) (j : nat) : res bool :=
    let! x := get X j in let! y := get Y j in Ok (isnan (x + y)).

  (** pchip.py:257-263: slope at the start, on-the-fly version *)
  Definition pchip_i_start (h1 h2 δ1 δ2 : F) : res F :=
    let! d := sdiv ((lit 2 0 * h1 + h2) * δ1 - h1 * δ2) (h1 + h2) in
    Ok (if negb (sign d =? sign δ1) then lit 0 0
        else if negb (sign δ1 =? sign δ2) && (fabs d >? fabs (lit 3 0 * δ1)) then lit 3 0 * δ1
        else d).

  (** pchip.py:289-296: slope at the end, on-the-fly version *)
  Definition pchip_i_end (h0 h1 δ0 δ1 : F) : res F :=
    let! d := sdiv ((h0 + lit 2 0 * h1) * δ1 - h1 * δ0) (h0 + h1) in
    Ok (if negb (sign d =? sign δ1) then lit 0 0
        else if negb (sign δ1 =? sign δ0) && (fabs d >? fabs (lit 3 0 * δ1)) then lit 3 0 * δ1
        else d).

  (** pchip.py:266-271, 281-286, 309-314: interior slope, on-the-fly version *)
  Definition pchip_i_mid (h0 h1 δ0 δ1 : F) : res F :=
    if sign δ0 * sign δ1 >? lit 0 0 then
      let w1 := lit 2 0 * h1 + h0 in
      let w2 := h1 + lit 2 0 * h0 in
      let! u := sdiv w1 δ0 in
      let! v := sdiv w2 δ1 in
      sdiv (w1 + w2) (u + v)
    else Ok (lit 0 0).

  (** pchip.py:191-338 *)
  Definition pchip_coeffs_i (X Y : list F) (i : nat) : res (list F) :=
    let! at_start := if Nat.eqb i 0 then Ok true else nan_at X Y (i - 1) in
    let! at_end := if Nat.eqb i (length X - 2) then Ok true else nan_at X Y (i + 2) in
    let! Xi := get X i in let! Xi1 := get X (i + 1) in
    let! Yi := get Y i in let! Yi1 := get Y (i + 1) in
    if at_start && at_end then
      let! d0 := sdiv (Yi1 - Yi) (Xi1 - Xi) in
      Ok [lit 0 0; lit 0 0; d0; Yi]
    else
      let h1 := Xi1 - Xi in
      let! dd :=
        (* the pair d[0], d[1] and δ[1] *)
        if at_start then
          let! Xi2 := get X (i + 2) in let! Yi2 := get Y (i + 2) in
          let h2 := Xi2 - Xi1 in
          let! δ1 := sdiv (Yi1 - Yi) h1 in
          let! δ2 := sdiv (Yi2 - Yi1) h2 in
          let! d0 := pchip_i_start h1 h2 δ1 δ2 in
          let! d1 := pchip_i_mid h1 h2 δ1 δ2 in
          Ok (d0, d1, δ1)
        else
          let! Xm := get X (i - 1) in let! Ym := get Y (i - 1) in
          if at_end then
            let h0 := Xi - Xm in
            let! δ0 := sdiv (Yi - Ym) h0 in
            let! δ1 := sdiv (Yi1 - Yi) h1 in
            let! d0 := pchip_i_mid h0 h1 δ0 δ1 in
            let! d1 := pchip_i_end h0 h1 δ0 δ1 in
            Ok (d0, d1, δ1)
          else
            let! Xi2 := get X (i + 2) in let! Yi2 := get Y (i + 2) in
            let h0 := Xi - Xm in
            let h2 := Xi2 - Xi1 in
            let! δ0 := sdiv (Yi - Ym) h0 in
            let! δ1 := sdiv (Yi1 - Yi) h1 in
            let! δ2 := sdiv (Yi2 - Yi1) h2 in
            let! d0 := pchip_i_mid h0 h1 δ0 δ1 in
            let! d1 := pchip_i_mid h1 h2 δ1 δ2 in
            Ok (d0, d1, δ1) in
      let '(d0, d1, δ1) := dd in
      let! dzzdx := sdiv (δ1 - d0) h1 in
      let! dzdxdx := sdiv (d1 - δ1) h1 in
      let! C3 := sdiv (dzdxdx - dzzdx) h1 in
      Ok [C3; lit 2 0 * dzzdx - dzdxdx; d0; Yi].

  (** linear.py:109-116, pchip.py (same shape) *)
  Definition linear_interp_1 := ppinterp_1 linear_coeffs_i.
  Definition linear_interp_1_two := ppinterp_1_two linear_coeffs_i.
  Definition pchip_interp_1 := ppinterp_1 pchip_coeffs_i.
  Definition pchip_interp_1_two := ppinterp_1_two pchip_coeffs_i.
End Ppinterp.
