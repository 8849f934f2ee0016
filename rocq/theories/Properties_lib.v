(** * Properties C26, C27, C28: array utilities and arguments (lib.py) *)
From Coq Require Import String ZArith Bool List.
From Verif Require Import Num SF Res Arr Nd M_graph M_lib S_lib P_lib P_casts P_bottom P_pin Ex_graph.
Import ListNotations.
Local Open Scope nat_scope.

(** ** C26 *)
Theorem C26_find_first_nan :
  forall {F} {Nm : Num F} (a : nd F) (axis : Z) s1 n2 s3,
    wf a -> shape a = s1 ++ n2 :: s3 -> (axis mod Z.of_nat (ndim a) = Z.of_nat (length s1))%Z ->
    exists out, find_first_nan a axis = Ok out /\ shape out = s1 ++ s3 /\ wf out
      /\ forall h1 h3, valid s1 h1 -> valid s3 h3 ->
           exists k, at_ out (h1 ++ h3) = Some k /\ first_nan (fun j => at_ a (h1 ++ j :: h3)) n2 k.
Proof. exact @find_first_nan_ok. Qed.
Print Assumptions C26_find_first_nan.

(** the Returns section has the two special cases the wrong way round *)
Theorem C26_find_first_nan_doc_refuted :
  exists (a : nd f64) out, find_first_nan a (-1) = Ok out /\ shape a = [3; 2]
    /\ (forall j, j < 2 -> exists v, at_ a [0; j] = Some v /\ isnan v = false) /\ at_ out [0] = Some 2
    /\ (forall j, j < 2 -> exists v, at_ a [2; j] = Some v /\ isnan v = true) /\ at_ out [2] = Some 0.
Proof. exact ex_ffn_refutes. Qed.
Print Assumptions C26_find_first_nan_doc_refuted.

Theorem C26_take_fill :
  forall {F} junk (a : list F) (idx : list Z) fillval,
    length idx <= length junk -> (forall k, In k idx -> (k < Z.of_nat (length a))%Z) ->
    exists b, take_fill junk a idx fillval = Ok b /\ length b = length idx
      /\ forall i k, nth_error idx i = Some k ->
           nth_error b i = if (0 <=? k)%Z then nth_error a (Z.to_nat k) else Some fillval.
Proof. exact @take_fill_ok. Qed.
Print Assumptions C26_take_fill.

Theorem C26_aggsum :
  forall {F} {Nm : Num F} (a : list F) (idx : list Z) n,
    length idx <= length a -> (forall k, In k idx -> (k < Z.of_nat n)%Z) ->
    exists b, aggsum a idx n = Ok b /\ length b = n
      /\ forall j, j < n -> nth_error b j = Some (fold_left add (group idx a j) zero).
Proof. exact @aggsum_ok. Qed.
Print Assumptions C26_aggsum.

(** val_at; the second component of the result is T afterwards *)
Theorem C26_val_at :
  forall {F} {Nm : Num F} (T : nd F) (k : nd Z) n,
    wf T -> wf k -> shape T = shape k ++ [n] -> 1 < ndim T -> ~ In 1 (shape k) ->
    (forall h z, valid (shape k) h -> at_ k h = Some z -> in_axis n z) ->
    exists Tk, val_at T (KArr k) = Ok (Tk, T) /\ shape Tk = shape k /\ wf Tk
      /\ forall h z, valid (shape k) h -> at_ k h = Some z -> value_at (at_ Tk h) (fun j => at_ T (h ++ [j])) z.
Proof. exact @val_at_nd. Qed.
Print Assumptions C26_val_at.

Theorem C26_val_at_1d :
  forall {F} {Nm : Num F} (T : nd F) (k : nd Z) n,
    wf T -> wf k -> shape T = [n] ->
    (forall h z, valid (shape k) h -> at_ k h = Some z -> in_axis n z) ->
    exists Tk, val_at T (KArr k) = Ok (Tk, T) /\ shape Tk = shape k /\ wf Tk
      /\ forall h z, valid (shape k) h -> at_ k h = Some z -> value_at (at_ Tk h) (fun j => at_ T [j]) z.
Proof. exact @val_at_1d. Qed.
Print Assumptions C26_val_at_1d.

Theorem C26_val_at_int :
  forall {F} {Nm : Num F} (T : nd F) sh n k,
    wf T -> shape T = sh ++ [n] -> k < n ->
    exists Tk, val_at T (KInt (Z.of_nat k)) = Ok (Tk, T) /\ shape Tk = sh /\ wf Tk
      /\ forall h, valid sh h -> at_ Tk h = at_ T (h ++ [k]).
Proof. exact @val_at_int. Qed.
Print Assumptions C26_val_at_int.

(** the documented combination: the value at the bottom of each cast *)
Theorem C26_bottom :
  forall {F} {Nm : Num F} (T : nd F) sh n,
    wf T -> shape T = sh ++ [n] -> sh <> [] -> ~ In 1 sh -> 0 < n ->
    exists k Tk, find_first_nan T (-1) = Ok k /\ val_at T (KArr (minus1 k)) = Ok (Tk, T) /\ shape Tk = sh
      /\ forall h, valid sh h -> exists K, first_nan (fun j => at_ T (h ++ [j])) n K
           /\ at_ Tk h = if Nat.eqb K 0 then Some nan else at_ T (h ++ [K - 1]).
Proof. exact @bottom_ok. Qed.
Print Assumptions C26_bottom.

Theorem C26_witness :
  find_first_nan ex_T (-1) = Ok (mk_nd [3] [2; 1; 0])
  /\ val_at ex_T (KArr (mk_nd [3] [1; 0; -1]%Z)) = Ok (mk_nd [3] [fl 2; fl 3; nan], ex_T)
  /\ take_fill (repeat (fl 7) 3) [fl 1; fl 2] [1; -1; 0]%Z nan = Ok [fl 2; nan; fl 1]
  /\ aggsum [fl 1; fl 2; fl 4; fl 8] [1; -1; 0; 1]%Z 3 = Ok [fl 4; fl 9; fl 0].
Proof. exact (conj ex_ffn (conj ex_bottom (conj ex_take_fill ex_aggsum))). Qed.
Print Assumptions C26_witness.

(** a negative integer -k gives NaN everywhere, and overwrites that level, and no other, of the caller's array *)
Theorem C26_val_at_negative :
  forall {F} {Nm : Num F} (T : nd F) sh n k,
    wf T -> shape T = sh ++ [n] -> 0 < k <= n ->
    exists Tk T', val_at T (KInt (- Z.of_nat k)) = Ok (Tk, T') /\ shape Tk = sh /\ wf Tk /\ shape T' = shape T /\ wf T'
      /\ forall h, valid sh h -> at_ Tk h = Some nan
           /\ forall j, j < n -> at_ T' (h ++ [j]) = if Nat.eqb (j + k) n then Some nan else at_ T (h ++ [j]).
Proof. exact @val_at_negative. Qed.
Print Assumptions C26_val_at_negative.

(** a negative integer k overwrites the caller's array *)
Theorem C26_val_at_unchanged_refuted :
  exists (T Tk T' : nd f64) k, val_at T (KInt k) = Ok (Tk, T') /\ T' <> T.
Proof. exact ex_val_at_mutates_refutes. Qed.
Print Assumptions C26_val_at_unchanged_refuted.

(** a singleton horizontal dimension is rejected *)
Theorem C26_val_at_singleton_refuted :
  exists (T : nd f64) (k : nd Z), wf T /\ wf k /\ shape T = shape k ++ [2] /\ elems k = [1]%Z /\ val_at T (KArr k) = Err IndexError.
Proof. exact ex_val_at_singleton_refutes. Qed.
Print Assumptions C26_val_at_singleton_refuted.

(** ** C27.  The vertical axis is at position |s1| of the input. *)
Theorem C27_process_casts :
  forall {F} {Nm : Num F} (S T P : @data F) v s1 n s2,
    wf (arr S) -> wf (arr T) -> wf (arr P) ->
    shape (arr S) = s1 ++ n :: s2 -> shape (arr T) = s1 ++ n :: s2 ->
    process_vert_dim v S = Ok (length s1) ->
    (shape (arr P) = s1 ++ n :: s2 \/ shape (arr P) = [n]) ->
    exists s t p, process_casts S T P v = Ok (s, t, p)
      /\ laid_out (at_ (arr S)) s1 s2 n s /\ laid_out (at_ (arr T)) s1 s2 n t
      /\ laid_out (fun ix => if Nat.eqb (ndim (arr P)) (ndim (arr S)) then at_ (arr P) ix else at_ (arr P) [nth (length s1) ix 0])
           s1 s2 n p.
Proof. exact @process_casts_ok. Qed.
Print Assumptions C27_process_casts.

Theorem C27_vert_dim_int :
  forall {F} z (S : @data F), 0 < ndim (arr S) ->
    process_vert_dim (VInt z) S = Ok (Z.to_nat (z mod Z.of_nat (ndim (arr S)))).
Proof. exact @process_vert_dim_int. Qed.
Print Assumptions C27_vert_dim_int.

Theorem C27_vert_dim_name :
  forall {F} s (S : @data F) ds i, dims S = Some ds -> NoDup ds -> length ds = ndim (arr S) ->
    nth_error ds i = Some s -> process_vert_dim (VName s) S = Ok i.
Proof. exact @process_vert_dim_name. Qed.
Print Assumptions C27_vert_dim_name.

(** the output container has the remaining dimensions, in order *)
Theorem C27_container :
  forall {F} (S : @data F) d1 s d2 s1 n s2 v,
    dims S = Some (d1 ++ s :: d2) -> NoDup (d1 ++ s :: d2) -> shape (arr S) = s1 ++ n :: s2 -> length d1 = length s1 ->
    length d2 = length s2 -> 0 < n -> In s (coords S) ->
    (v = VName s \/ exists z, v = VInt z /\ in_axis (ndim (arr S)) z /\ (z mod Z.of_nat (ndim (arr S)) = Z.of_nat (length d1))%Z) ->
    xr_in S v = Ok (Some (d1 ++ d2, s1 ++ s2)).
Proof. exact @xr_in_ok. Qed.
Print Assumptions C27_container.

Theorem C27_witness :
  process_casts ex_S ex_S ex_Pv (VName "z") =
    Ok (mk_nd [3; 2] (map fl [1; 11; 2; 12; 3; 13]%Z), mk_nd [3; 2] (map fl [1; 11; 2; 12; 3; 13]%Z),
        mk_nd [3; 2] (map fl [100; 200; 100; 200; 100; 200]%Z))
  /\ process_casts ex_S ex_S ex_Pv (VInt (-2)) = process_casts ex_S ex_S ex_Pv (VName "z")
  /\ xr_in ex_S (VName "z") = Ok (Some (["x"%string], [3])).
Proof. exact (conj ex_casts (conj ex_casts_int ex_xr_in)). Qed.
Print Assumptions C27_witness.

(** T with its dimensions in another order than S is not laid out by its own
    vertical dimension *)
Theorem C27_T_order_refuted :
  exists (S T P : @data f64) s t p, process_casts S T P (VName "z") = Ok (s, t, p)
    /\ dims T = Some ["x"; "z"]%string /\ shape (arr T) = [3; 2] /\ shape t = [2; 3].
Proof. exact ex_casts_T_refutes. Qed.
Print Assumptions C27_T_order_refuted.

(** a DataArray without coordinate along the vertical dimension is rejected *)
Theorem C27_no_coordinate_refuted :
  exists (S : @data f64) ds, dims S = Some ds /\ In "z"%string ds /\ 0 < nth 0 (shape (arr S)) 0
    /\ xr_in S (VName "z") = Err ValueError.
Proof. exact ex_no_coord_refutes. Qed.
Print Assumptions C27_no_coordinate_refuted.

(** ** C28 *)
Theorem C28_pin_cast :
  forall {F} {Nm : Num F} dims (index : string -> option (list F)) d idx,
    NoDup dims -> map fst d = dims -> (forall nm ls, index nm = Some ls -> increasing ls) ->
    selects dims index d idx ->
    process_pin_cast (PinDict d) index = Ok (map Z.of_nat idx).
Proof. exact @process_pin_cast_ordered. Qed.
Print Assumptions C28_pin_cast.

Theorem C28_witness :
  selects ["x"; "y"]%string ex_index [("x"%string, fl 20); ("y"%string, fl 3)] [1; 2]
  /\ (forall nm ls, ex_index nm = Some ls -> increasing ls)
  /\ process_pin_cast (PinDict [("x"%string, fl 20); ("y"%string, fl 3)]) ex_index = Ok [1; 2]%Z.
Proof. exact (conj (ex_selects _ (or_introl eq_refl)) (conj ex_increasing ex_pin)). Qed.
Print Assumptions C28_witness.

(** the order in which the labels are listed matters *)
Theorem C28_dict_order_refuted :
  exists dims (index : string -> option (list f64)) d idx,
    NoDup dims /\ (forall nm ls, index nm = Some ls -> increasing ls) /\ selects dims index d idx
    /\ process_pin_cast (PinDict d) index = Ok [2; 1]%Z /\ [2; 1]%Z <> map Z.of_nat idx.
Proof. exact ex_pin_refutes. Qed.
Print Assumptions C28_dict_order_refuted.

(** decreasing labels (e.g. latitude from north to south) give a wrong index *)
Theorem C28_decreasing_labels_refuted :
  exists (index : string -> option (list f64)) d idx, selects ["x"%string] index d idx
    /\ map fst d = ["x"%string] /\ process_pin_cast (PinDict d) index = Ok [3]%Z /\ idx = [0].
Proof. exact ex_pin_decreasing_refutes. Qed.
Print Assumptions C28_decreasing_labels_refuted.
