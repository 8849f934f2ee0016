(** * Model of neutralocean/lib.py and neutralocean/grid/tools.py *)
From Coq Require Import String ZArith Bool List.
From Verif Require Import Num Res Arr Nd M_graph M_numpy.
Import ListNotations.

Section Lib.
  Context {F : Type} {Nm : Num F}.

  (** lib.py:66-70: the loop over j with its break; a1[j] = a[i, j, k] *)
  Fixpoint scan_nan (a : list F) (J K i k : nat) (js : list nat) (out : list nat) : res (list nat) :=
    match js with
    | [] => Ok out
    | j :: r =>
        let! x := get a ((i * J + j) * K + k) in
        if isnan x then set out (i * K + k) j else scan_nan a J K i k r out
    end.

  (** lib.py:58-71 *)
  Definition find_first_nan3 (a : list F) (I J K : nat) : res (list nat) :=
    for_range 0 I
      (fun i out => for_range 0 K (fun k out => scan_nan a J K i k (seq 0 J) out) out)
      (repeat J (I * K)).

  (** lib.py:10-55 *)
  Definition find_first_nan (a : nd F) (axis : Z) : res (nd nat) :=
    if Nat.eqb (ndim a) 0 then Err ZeroDivisionError else
    let axis := Z.to_nat (axis mod Z.of_nat (ndim a)) in
    let shape1 := firstn axis (shape a) in
    let shape3 := skipn (axis + 1) (shape a) in
    let n2 := nth axis (shape a) 0 in
    let! out := find_first_nan3 (elems a) (prod shape1) n2 (prod shape3) in
    Ok (mk_nd (shape1 ++ shape3) out).

  (** lib.py:75-100; [junk] is the content of np.empty *)
  Definition take_fill (junk : list F) (a : list F) (idx : list Z) (fillval : F) : res (list F) :=
    for_range 0 (length idx)
      (fun i b =>
         let! k := get idx i in
         if (0 <=? k)%Z then let! x := get a (Z.to_nat k) in set b i x else set b i fillval)
      (firstn (length idx) junk).

  (** lib.py:104-137 *)
  Definition aggsum (a : list F) (idx : list Z) (n : nat) : res (list F) :=
    for_range 0 (length idx)
      (fun i b =>
         let! k := get idx i in
         if (0 <=? k)%Z then
           let! y := get b (Z.to_nat k) in
           let! x := get a i in
           set b (Z.to_nat k) (add y x)
         else Ok b)
      (repeat zero n).

  (** numpy arithmetic on 1D arrays: lengths equal, or one of them 1
      (a scalar operand is represented by an array of length 1) *)
  Definition np_bin (f : F -> F -> F) (x y : list F) : res (list F) :=
    if Nat.eqb (length x) (length y) then Ok (map (fun p => f (fst p) (snd p)) (combine x y))
    else match x, y with
         | [u], _ => Ok (map (f u) y)
         | _, [v] => Ok (map (fun u => f u v) x)
         | _, _ => Err ValueError
         end.

  (** grid/tools.py:4-20 *)
  Definition divergence (vector : list F) (edges : list (nat * nat)) (distperp area : list F) : res (list F) :=
    let! m := max_node edges in
    let N := S m in
    let! e := np_bin mul vector distperp in
    let! out := aggsum e (map (fun e => Z.of_nat (fst e)) edges) N in
    let! inc := aggsum e (map (fun e => Z.of_nat (snd e)) edges) N in
    let! d := np_bin sub out inc in
    np_bin div d area.

  (** ** val_at *)
  Inductive index := KInt (k : Z) | KArr (k : nd Z).

  (** index into an axis of length n in numpy indexing: negative wraps once *)
  Definition np_index (n : nat) (k : Z) : res nat :=
    if (- Z.of_nat n <=? k)%Z && (k <? Z.of_nat n)%Z
    then Ok (Z.to_nat (if (k <? 0)%Z then k + Z.of_nat n else k)) else Err IndexError.

  (** T[..., k] for an integer k: the shape without the last axis *)
  Definition last_at (T : nd F) (k : Z) : res (nd F) :=
    match rev (shape T) with
    | [] => Err IndexError
    | n :: rsh =>
        let sh := rev rsh in
        let! j := np_index n k in
        Ok (build sh (fun h => getd T nan (h ++ [j])))
    end.

  (** T[..., :, k] = v written through a view *)
  Definition fill_last (T : nd F) (k : Z) (v : F) : res (nd F) :=
    match rev (shape T) with
    | [] => Err IndexError
    | n :: _ =>
        let! j := np_index n k in
        Ok (build (shape T) (fun ix => if Nat.eqb (last ix 0) j then v else getd T nan ix))
    end.

  (** T[k] for 1D T and an index array k: a copy *)
  Definition fancy1 (T : nd F) (k : nd Z) : res (nd F) :=
    let n := nth 0 (shape T) 0 in
    buildM (shape k) (fun h => let! j := np_index n (getd k 0%Z h) in Ok (getd T nan [j])).

  (** np.take_along_axis(T, k[..., None], -1).squeeze(), for k of the shape of
      T without its last axis (numpy's broadcasting of singleton axes here is
      not modelled); squeeze drops every axis of length 1 *)
  Definition take_last (T : nd F) (k : nd Z) : res (nd F) :=
    let n := last (shape T) 0 in
    if list_eq_dec Nat.eq_dec (shape k ++ [n]) (shape T) then
      let! r := buildM (shape k) (fun h => let! j := np_index n (getd k 0%Z h) in Ok (getd T nan (h ++ [j]))) in
      Ok (mk_nd (filter (fun n => negb (Nat.eqb n 1)) (shape r)) (elems r))
    else Err IndexError.

  (** Tk[k < 0] = nan for an array k: numpy demands equal shapes *)
  Definition mask_neg (Tk : nd F) (k : nd Z) : res (nd F) :=
    if list_eq_dec Nat.eq_dec (shape Tk) (shape k) then
      Ok (mk_nd (shape Tk) (map (fun p => if (snd p <? 0)%Z then nan else fst p) (combine (elems Tk) (elems k))))
    else Err IndexError.

  (** lib.py:140-198: the result and T afterwards *)
  Definition val_at (T : nd F) (k : index) : res (nd F * nd F) :=
    match k with
    | KInt k =>
        let! Tk := last_at T k in
        (* Tk is a view of T; k < 0 is one boolean for the whole of Tk *)
        if (k <? 0)%Z then
          let! T' := fill_last T k nan in
          let! Tk' := last_at T' k in
          Ok (Tk', T')
        else Ok (Tk, T)
    | KArr k =>
        if Nat.eqb (ndim T) 1 then
          let! Tk := fancy1 T k in let! Tk := mask_neg Tk k in Ok (Tk, T)
        else if Nat.eqb (ndim T) (ndim k + 1) then
          let! Tk := take_last T k in let! Tk := mask_neg Tk k in Ok (Tk, T)
        else Err ValueError
    end.

  (** ** Casts *)

  (** an ndarray, or a DataArray with its dimension names and the names of
      the dimensions that have a coordinate variable *)
  Record data := mk_data { arr : nd F; dims : option (list string); coords : list string }.

  Inductive vdim := VName (s : string) | VInt (z : Z).

  Fixpoint index_of (s : string) (l : list string) : option nat :=
    match l with
    | [] => None
    | x :: r => if String.eqb x s then Some 0 else option_map S (index_of s r)
    end.

  (** np.mod(v, n); numpy gives 0 for n = 0 *)
  Definition np_mod (v : Z) (n : nat) : nat := if Nat.eqb n 0 then 0 else Z.to_nat (v mod Z.of_nat n).

  (** lib.py:250-259 *)
  Definition process_vert_dim (v : vdim) (S : data) : res nat :=
    match v, dims S with
    | VName s, Some ds =>
        match index_of s ds with
        | Some i => Ok (np_mod (Z.of_nat i) (ndim (arr S)))
        | None => Err ValueError
        end
    | VName _, None => Err TypeError
    | VInt z, _ => Ok (np_mod z (ndim (arr S)))
    end.

  (** insert k at position v *)
  Definition insert_at {A} (v : nat) (k : A) (h : list A) : list A := firstn v h ++ k :: skipn v h.
  Definition remove_at {A} (v : nat) (l : list A) : list A := firstn v l ++ skipn (S v) l.

  (** np.moveaxis(S, v, -1) *)
  Definition moveaxis_last (S : nd F) (v : nat) : res (nd F) :=
    if Nat.ltb v (ndim S) then
      Ok (build (remove_at v (shape S) ++ [nth v (shape S) 0])
            (fun ix => getd S nan (insert_at v (last ix 0) (removelast ix))))
    else Err ValueError.

  (** lib.py:262-282; contiguity and the conversion to float64 are not represented *)
  Definition contiguous_casts (S : nd F) (v : nat) : res (nd F) :=
    if Nat.ltb 1 (ndim S) && negb (Nat.eqb v (ndim S - 1)) then moveaxis_last S v else Ok S.

  (** np.broadcast_to(P, sh) for P of the same rank *)
  Definition broadcast_to (P : nd F) (sh : list nat) : res (nd F) :=
    if Nat.eqb (ndim P) (length sh)
       && forallb (fun p => Nat.eqb (fst p) (snd p) || Nat.eqb (fst p) 1) (combine (shape P) sh)
    then Ok (build sh (fun ix => getd P nan (map (fun p => if Nat.eqb (fst p) 1 then 0 else snd p) (combine (shape P) ix))))
    else Err ValueError.

  (** lib.py:293-296 *)
  Definition broadcast_P (P : nd F) (sh : list nat) (v : nat) : res (nd F) :=
    if Nat.ltb (ndim P) (length sh) then
      broadcast_to (mk_nd (map (fun x => if Nat.eqb x v then length (elems P) else 1) (seq 0 (length sh))) (elems P)) sh
    else Ok P.

  (** lib.py:285-299 *)
  Definition process_casts (S T P : data) (v : vdim) : res (nd F * nd F * nd F) :=
    let! v := process_vert_dim v S in
    let! p := broadcast_P (arr P) (shape (arr S)) v in
    let! s := contiguous_casts (arr S) v in
    let! t := contiguous_casts (arr T) v in
    let! p := contiguous_casts p v in
    Ok (s, t, p).

  (** lib.py:208-218: dimension names and shape of the output container of a
      DataArray; drop_vars raises when the dimension has no coordinate variable *)
  Definition xr_in (S : data) (v : vdim) : res (option (list string * list nat)) :=
    match dims S with
    | None => Ok None
    | Some ds =>
        let! name := match v with
                     | VName s => Ok s
                     | VInt z => let! i := np_index (length ds) z in
                                 match nth_error ds i with Some s => Ok s | None => Err IndexError end
                     end in
        match index_of name ds with
        | None => Err ValueError
        | Some i =>
            if Nat.eqb (nth i (shape (arr S)) 0) 0 then Err IndexError
            else if existsb (String.eqb name) (coords S) then Ok (Some (remove_at i ds, remove_at i (shape (arr S))))
            else Err ValueError
        end
    end.

  (** lib.py:241-247: sxr.data = s demands equal shapes *)
  Definition xr_out (s : nd F) (c : option (list string * list nat)) : res data :=
    match c with
    | None => Ok (mk_data s None [])
    | Some (ds, sh) => if list_eq_dec Nat.eq_dec sh (shape s) then Ok (mk_data s (Some ds) ds) else Err ValueError
    end.

  (** ** Pin cast *)

  Inductive pin := PinDict (d : list (string * F)) | PinInt (i : Z) | PinTuple (t : list Z).

  (** lib.py:345-364; [index] gives the labels of each dimension (get_index), searched by
      pandas Index.searchsorted, which is numpy's *)
  Definition process_pin_cast (p : pin) (index : string -> option (list F)) : res (list Z) :=
    match p with
    | PinDict d =>
        mapM (fun kv => match index (fst kv) with
                        | Some ls => Ok (Z.of_nat (searchsorted ls (snd kv)))
                        | None => Err KeyError
                        end) d
    | PinInt i => Ok [i]
    | PinTuple t => Ok t
    end.
End Lib.
