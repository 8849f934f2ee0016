(** * Model of neutralocean/stability.py

    [eos] and [eos_s_t] act elementwise on arrays.  S, T and P (after broadcasting) have one shape;
    numpy's broadcasting of S against T is not modelled.  scipy's [minimize] and numpy's random
    numbers are parameters.  Printing is left out. *)
From Coq Require Import String ZArith Bool List.
From Verif Require Import Num Res Arr Nd M_lib M_ppinterp M_mixed_layer.
Import ListNotations.
Local Open Scope num_scope.

Section Stability.
  Context {F : Type} {N : Num F}.

  (** (S[c], T[c], P[c]) *)
  Definition trip : Type := (list F * list F * list F)%type.

  (** the casts X[c] of an array with n levels, for c in np.ndindex(X.shape[0:-1]) *)
  Definition rows (n : nat) (a : nd F) : list (list F) := map (column a n) (all_idx (removelast (shape a))).
  Definition triples (n : nat) (s t p : nd F) : list trip := combine (combine (rows n s) (rows n t)) (rows n p).

  Definition at0 (l : list F) (k : nat) : F := nth k l nan.

  (** stability.py:53-56 for one cast *)
  Definition unstable_fd (eos : F -> F -> F -> res F) (k : nat) (c : trip) : res bool :=
    let '(s, t, p) := c in
    let p_avg := (at0 p k + at0 p (k + 1)) / lit 2 0 in
    let! r1 := eos (at0 s k) (at0 t k) p_avg in
    let! r2 := eos (at0 s (k + 1)) (at0 t (k + 1)) p_avg in
    Ok (r1 >=? r2).

  (** stability.py:58-62 for one cast *)
  Definition unstable_grad (interp_two : F -> list F -> list F -> list F -> nat -> res (F * F))
      (eos_s_t : F -> F -> F -> res (F * F)) (k : nat) (c : trip) : res bool :=
    let '(s, t, p) := c in
    let! d := interp_two (at0 p k) p s t 1 in
    let! r := eos_s_t (at0 s k) (at0 t k) (at0 p k) in
    Ok (fst r * fst d + snd r * snd d <? lit 0 0).

  (** stability.py:59, done for all casts before line 60 *)
  Definition interpolated (interp_two : F -> list F -> list F -> list F -> nat -> res (F * F)) (k : nat) (c : trip) : res (F * F) :=
    let '(s, t, p) := c in interp_two (at0 p k) p s t 1.

  (** np.sum of booleans *)
  Definition count (l : list bool) : nat := length (filter (fun b => b) l).

  (** kw.get(...) returns None for an absent keyword, which cannot be called *)
  Definition called {A} (f : option A) : res A := match f with Some f => Ok f | None => Err TypeError end.

  (** stability.py:8-64 *)
  Definition count_unstable (S_ T_ P_ : data) (interp_two : option (F -> list F -> list F -> list F -> nat -> res (F * F)))
      (eos : option (F -> F -> F -> res F)) (eos_s_t : option (F -> F -> F -> res (F * F))) (vert_dim : vdim) : res nat :=
    let! stp := process_casts S_ T_ P_ vert_dim in
    let '(s, t, p) := stp in
    if list_eq_dec Nat.eq_dec (shape s) (shape t) then
      if list_eq_dec Nat.eq_dec (shape s) (shape p) then
        match rev (shape s) with
        | [] => Err IndexError
        | n :: _ =>
            fold_left (fun acc k => let! acc := acc in
                         let! l := match interp_two with
                                   | None => let! f := called eos in mapM (unstable_fd f k) (triples n s t p)
                                   | Some g =>
                                       let! _ := mapM (interpolated g k) (triples n s t p) in
                                       let! f := called eos_s_t in mapM (unstable_grad g f k) (triples n s t p)
                                   end in
                         Ok (acc + count l)%nat)
              (seq 0 (n - 1)) (Ok 0%nat)
        end
      else Err ValueError
    else Err ValueError.

  (** eos(S, T, P) on vectors *)
  Definition eos_vec (eos : F -> F -> F -> res F) (s t p : list F) : res (list F) :=
    mapM (fun c => eos (fst (fst c)) (snd (fst c)) (snd c)) (combine (combine s t) p).

  (** stability.py:237-243 *)
  Definition calc_dLRPDdp_fd_1 (s t p : list F) (eos : F -> F -> F -> res F) : res (list F) :=
    let! q := np_bin add (removelast p) (tl p) in
    let p_avg := map (fun x => x / lit 2 0) q in
    let! r1 := eos_vec eos (removelast s) (removelast t) p_avg in
    let! r2 := eos_vec eos (tl s) (tl t) p_avg in
    let! ds := np_bin sub r2 r1 in
    let! dp := np_bin sub (tl p) (removelast p) in
    np_bin div ds dp.

  (** stability.py:168-174 *)
  Definition objective (w : F) (dx : list F) : F :=
    let n := Nat.div (length dx) 2 in
    fold_left add (map (fun d => w * fst d * fst d + snd d * snd d) (combine (firstn n dx) (skipn n dx))) (lit 0 0).

  (** stability.py:176-181 *)
  Definition jac (w : F) (dx : list F) : list F :=
    let n := Nat.div (length dx) 2 in
    let out := map (fun x => lit 2 0 * x) dx in
    map (fun x => x * w) (firstn n out) ++ skipn n out.

  (** stability.py:183-192 *)
  Definition perturb_dLRPDdp_fd_1 (s t p const : list F) (eos : F -> F -> F -> res F) (dx : list F) : res (list F) :=
    let n := Nat.div (length dx) 2 in
    let! s := np_bin add s (firstn n dx) in
    let! t := np_bin add t (skipn n dx) in
    let! q := np_bin add (removelast p) (tl p) in
    let p_avg := map (fun x => x / lit 2 0) q in
    let! r1 := eos_vec eos (removelast s) (removelast t) p_avg in
    let! r2 := eos_vec eos (tl s) (tl t) p_avg in
    let! ds := np_bin sub r2 r1 in
    let! dp := np_bin sub (tl p) (removelast p) in
    let! g := np_bin div ds dp in
    np_bin sub g const.

  (** np_bin for a comparison *)
  Definition np_any_lt (x y : list F) : res bool :=
    if Nat.eqb (length x) (length y) then Ok (existsb (fun p => fst p <? snd p) (combine x y))
    else match x, y with
         | [u], _ => Ok (existsb (fun v => u <? v) y)
         | _, [v] => Ok (existsb (fun u => u <? v) x)
         | _, _ => Err ValueError
         end.

  (** l[k:K] += d *)
  Definition add_slice (l : list F) (k K : nat) (d : list F) : res (list F) :=
    let! m := np_bin add (slice l k K) d in
    if Nat.eqb (length m) (K - k) then Ok (firstn k l ++ m ++ skipn K l) else Err ValueError.

  (** minimize(f, x0, args=(weight,), jac=jac, constraints=con, ...): res.success and res.x *)
  Variable minimize : (F -> list F -> F) -> list F -> F -> (F -> list F -> list F) -> (list F -> res (list F)) -> res (bool * list F).

  (** stability.py:204-229, one cast *)
  Definition stabilize_1 (eos : F -> F -> F -> res F) (weight : F) (x0_nk min_d : list F) (c : trip) : res (list F * list F) :=
    let '(s, t, p) := c in
    let! kK := valid_range_1 s in
    let '(k, K) := kK in
    let s1 := slice s k K in
    let t1 := slice t k K in
    let p1 := slice p k K in
    let m1 := slice min_d k (K - 1) in
    let n := length s1 in
    if Nat.ltb 1 n then
      let! d := calc_dLRPDdp_fd_1 s1 t1 p1 eos in
      let! u := np_any_lt d m1 in
      if u then
        let! r := minimize objective (firstn (2 * n) x0_nk) weight jac (perturb_dLRPDdp_fd_1 s1 t1 p1 m1 eos) in
        if fst r then
          let! s_new := add_slice s k K (firstn n (snd r)) in
          let! t_new := add_slice t k K (skipn n (snd r)) in
          Ok (s_new, t_new)
        else Err RuntimeError
      else Ok (s, t)
    else Ok (s, t).

  (** the loop over casts: those treated before an exception stay changed *)
  Fixpoint stabilize_loop (f : trip -> res (list F * list F)) (cs : list trip) : list (list F * list F) * option exn :=
    match cs with
    | [] => ([], None)
    | c :: r =>
        match f c with
        | Ok st => let '(l, e) := stabilize_loop f r in (st :: l, e)
        | Err e => (map fst cs, Some e)
        end
    end.

  Inductive scalar_or_array := Scalar (x : F) | Vector (l : list F).

  (** stability.py:67-234: what the arrays made by _process_casts hold afterwards, and the
      exception raised in the loop, if any.  [normal n]: n random numbers *)
  Definition stabilize_ST (S_ T_ P_ : data) (eos : F -> F -> F -> res F) (min_dLRPDdp : scalar_or_array) (weight : F)
      (vert_dim : vdim) (normal : nat -> list F) : res (nd F * nd F * option exn) :=
    let! stp := process_casts S_ T_ P_ vert_dim in
    let '(s, t, p) := stp in
    if list_eq_dec Nat.eq_dec (shape s) (shape t) then
      if list_eq_dec Nat.eq_dec (shape s) (shape p) then
        match rev (shape s) with
        | [] => Err IndexError
        | n :: _ =>
            let! min_d := match min_dLRPDdp with
                          | Scalar x => if Nat.eqb n 0 then Err ValueError else Ok (repeat x (n - 1))
                          | Vector l => Ok l
                          end in
            let '(l, e) := stabilize_loop (stabilize_1 eos weight (normal (2 * n)%nat) min_d) (triples n s t p) in
            Ok (mk_nd (shape s) (concat (map fst l)), mk_nd (shape t) (concat (map snd l)), e)
        end
      else Err ValueError
    else Err ValueError.

  (** ** What happens to the user's array

      A numpy array is a buffer, the position of its first element, and for each dimension its
      length and stride (in elements). *)
  Record ndarray := mk_arr { buf : list F; start : Z; dimens : list nat; strides : list Z; is_f64 : bool }.

  Fixpoint offset (st : list Z) (ix : list nat) : Z :=
    match st, ix with
    | s :: r, i :: q => (Z.of_nat i * s + offset r q)%Z
    | _, _ => 0%Z
    end.
  Definition address (a : ndarray) (ix : list nat) : Z := (start a + offset (strides a) ix)%Z.
  (** a[ix] *)
  Definition value (a : ndarray) (ix : list nat) : option F :=
    if (address a ix <? 0)%Z then None else nth_error (buf a) (Z.to_nat (address a ix)).

  (** the view np.moveaxis(a, v, -1) *)
  Definition move_last (a : ndarray) (v : nat) : ndarray :=
    mk_arr (buf a) (start a) (remove_at v (dimens a) ++ [nth v (dimens a) 0%nat])
      (remove_at v (strides a) ++ [nth v (strides a) 0%Z]) (is_f64 a).

  (** flags["C_CONTIGUOUS"]: dimensions of length 1 do not count *)
  Fixpoint contiguous (sh : list nat) (st : list Z) : bool :=
    match sh, st with
    | n :: r, s :: q => contiguous r q && (Nat.eqb n 1 || Z.eqb s (Z.of_nat (prod r)))
    | _, _ => true
    end.
  Definition c_contiguous (a : ndarray) : bool := existsb (Nat.eqb 0) (dimens a) || contiguous (dimens a) (strides a).

  (** lib.py:279-282: the view or copy that is mutated *)
  Definition rearranged (a : ndarray) (v : nat) : ndarray :=
    if Nat.ltb 1 (length (dimens a)) && negb (Nat.eqb v (length (dimens a) - 1)) then move_last a v else a.
  (** np.require(x, float64, "C") returns x itself, not a copy *)
  Definition shared (a : ndarray) (v : nat) : bool := is_f64 (rearranged a v) && c_contiguous (rearranged a v).

  (** the user's array after the array made by _process_casts was overwritten with x *)
  Definition after (a : ndarray) (v : nat) (x : nd F) : ndarray :=
    if shared a v then
      let b := Z.to_nat (start a) in
      mk_arr (firstn b (buf a) ++ elems x ++ skipn (b + length (elems x)) (buf a)) (start a) (dimens a) (strides a) (is_f64 a)
    else a.
End Stability.
