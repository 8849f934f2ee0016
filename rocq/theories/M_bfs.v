(** * Model of neutralocean/bfs.py

    Node indices are natural numbers.  The queue counters qt, qh of the source
    start at -1; the model keeps qt + 1 (number of queued nodes) and qh + 1
    (number of nodes already taken from the queue).  [junk] is the
    uninitialised content of np.empty(N). *)
From Coq Require Import ZArith Bool List.
From Verif Require Import Num Res Arr M_fzero M_ppinterp M_traj.
Import ListNotations.

(** indices[indptr[m] : indptr[m + 1]] *)
Definition neighbours (indptr indices : list nat) (m : nat) : res (list nat) :=
  let! a := get indptr m in
  let! b := get indptr (m + 1) in
  Ok (slice indices a b).

(** bfs.py:62-67 *)
Definition bfs_visit (n : nat) (st : list nat * nat * list bool) : res (list nat * nat * list bool) :=
  let '(qu, qt, good) := st in
  let! g := get good n in
  if g then
    let! qu := set qu qt n in
    let! good := set good n false in
    Ok (qu, S qt, good)
  else Ok st.

(** bfs.py:57-67 *)
Definition bfs_body (indptr indices : list nat) (st : list nat * nat * nat * list bool)
  : res ((list nat * nat * nat * list bool) + (list nat * nat * list bool)) :=
  let '(qu, qt, qh, good) := st in
  if Nat.ltb qh qt then
    let! m := get qu qh in
    let! ns := neighbours indptr indices m in
    let! r := for_each ns bfs_visit (qu, qt, good) in
    let '(qu, qt, good) := r in
    Ok (inl (qu, qt, S qh, good))
  else Ok (inr (qu, qt, good)).

(** bfs.py:9-70.  Returns the queue and the mutated [good]. *)
Definition bfs_conncomp1 (fuel : nat) (junk indptr indices : list nat) (root : nat) (good : list bool)
  : res (list nat * list bool) :=
  let qu := firstn (length good) junk in
  let! g := get good root in
  if g then
    let! qu := set qu 0 root in
    let! good := set good root false in
    let! r := loop fuel (bfs_body indptr indices) (qu, 1, 0, good) in
    let '(qu, qt, good) := r in
    Ok (firstn qt qu, good)
  else Ok ([], good).

Section Wet.
  Context {F : Type} {N : Num F}.
  Variable eos : F -> F -> F -> res F.
  Variable ppc_fn : list F -> list F -> res (list (list F)).
  Variable fuel : nat.

  (** the casts S[n], T[n], P[n] *)
  Variable casts : list (list F * list F * list F).
  Variable tol_p : F.
  Variable p_ml : list F.

  (** local variables of bfs_conncomp1_wet; [wstp] holds s, t, p together *)
  Record wstate := mkW { wqu : list nat; wqt : nat; wgood : list bool; wdry : list bool;
                         wnew : nat; wstp : list (F * F * F) }.

  (** bfs.py:188-205: None when cast n has at most one valid data site, else
      the NTP link from a bottle to cast n *)
  Definition wet_link (bottle : F * F * F) (n : nat) : res (option (F * F * F)) :=
    let! c := get casts n in
    let '(Sn, Tn, Pn) := c in
    let! kK := valid_range_1_two Sn Pn in
    let (k, K) := kK in
    if Nat.leb (K - k) 1 then Ok None
    else
      let '(s, t, p) := bottle in
      let! r := ntp_bottle_to_cast eos ppc_fn fuel s t p Sn Tn Pn k K tol_p in
      Ok (Some r).

  (** bfs.py:177-214 *)
  Definition wet_visit (m n : nat) (st : wstate) : res wstate :=
    let '(mkW qu qt good dry new stp) := st in
    let! g := get good n in
    if g then
      let! qu := set qu qt n in
      let! good := set good n false in
      Ok (mkW qu (S qt) good dry new stp)
    else
      let! d := get dry n in
      if d then
        let! bottle := get stp m in
        let! r := wet_link bottle n in
        match r with
        | None =>
            let! dry := set dry n false in
            Ok (mkW qu qt good dry new stp)
        | Some (s_, t_, p_) =>
            let! ok := if isfinite p_ then (let! ml := get p_ml n in Ok (ltb ml p_)) else Ok false in
            if ok then
              let! qu := set qu qt n in
              let! dry := set dry n false in
              let! stp := set stp n (s_, t_, p_) in
              Ok (mkW qu (S qt) good dry (S new) stp)
            else Ok st
        end
      else Ok st.

  (** bfs.py:172-214 *)
  Definition wet_body (indptr indices : list nat) (x : wstate * nat) : res (wstate * nat + wstate) :=
    let (st, qh) := x in
    if Nat.ltb qh (wqt st) then
      let! m := get (wqu st) qh in
      let! ns := neighbours indptr indices m in
      let! st := for_each ns (wet_visit m) st in
      Ok (inl (st, S qh))
    else Ok (inr st).

  (** bfs.py:74-216.  Returns qu, newly_wet and the mutated (s, t, p). *)
  Definition bfs_conncomp1_wet (loop_fuel : nat) (junk indptr indices : list nat) (root : nat)
    (stp : list (F * F * F)) : res (list nat * nat * list (F * F * F)) :=
    let qu := firstn (length casts) junk in
    let good := map (fun x => isfinite (snd x)) stp in
    let dry := map negb good in
    let! g := get good root in
    if g then
      let! qu := set qu 0 root in
      let! good := set good root false in
      let! st := loop loop_fuel (wet_body indptr indices) (mkW qu 1 good dry 0 stp, 0) in
      Ok (firstn (wqt st) (wqu st), wnew st, wstp st)
    else Ok ([], 0, stp).

  (** ** bfs_conncomp1_wet_perim *)

  (** State of the first phase.  [pqT] is qT + 1: perimeter nodes are stored in
      qu[qT+1 .. N-1].  (qT = -1 is representable, but writing there is
      qu[-1] in the source, i.e. it would wrap around; the model makes it
      OutOfBounds and the theorems show that it does not happen.) *)
  Record pstate := mkP { pqu : list nat; pqt : nat; pgood : list bool; padj : list bool; pqT : nat }.

  Definition push_perim (qu : list nat) (qT : nat) (n : nat) : res (list nat * nat) :=
    match qT with
    | O => Err OutOfBounds
    | S q => let! qu := set qu q n in Ok (qu, q)
    end.

  (** bfs.py:287-297 *)
  Definition perim_visit (n : nat) (st : pstate) : res pstate :=
    let '(mkP qu qt good adj qT) := st in
    let! g := get good n in
    if g then
      let! qu := set qu qt n in
      let! good := set good n false in
      Ok (mkP qu (S qt) good adj qT)
    else
      let! a := get adj n in
      if a then Ok st
      else
        let! r := push_perim qu qT n in
        let (qu, qT) := r in
        let! adj := set adj n true in
        Ok (mkP qu qt good adj qT).

  (** bfs.py:282-297 *)
  Definition perim_body (indptr indices : list nat) (x : pstate * nat) : res (pstate * nat + pstate) :=
    let (st, qh) := x in
    if Nat.ltb qh (pqt st) then
      let! m := get (pqu st) qh in
      let! ns := neighbours indptr indices m in
      let! st := for_each ns perim_visit st in
      Ok (inl (st, S qh))
    else Ok (inr st).

  (** State of the second phase *)
  Record qstate := mkQ { qqu : list nat; qadj : list bool; qqT : nat; qnew : nat; qstp : list (F * F * F) }.

  (** bfs.py:332-343: accumulate the pressures of the successful links to a
      dry cast with data Pm, Sppc, Tppc *)
  Definition perim_links (Pm : list F) (Sppc Tppc : list (list F)) (stp : list (F * F * F)) (neigh : list nat)
    : res (F * nat) :=
    for_each neigh
      (fun n (acc : F * nat) =>
         let (p0, denom) := acc in
         let! b := get stp n in
         let '(s, t, p) := b in
         if isfinite p then
           let! p_ := ntp_bottle_to_cast_ppc eos fuel tol_p s t p Pm Sppc Tppc in
           let! ok := if isfinite p_ then (let! ml := get p_ml n in Ok (ltb ml p_)) else Ok false in
           if ok then Ok (add p0 p_, S denom) else Ok acc
         else Ok acc) (lit 0 0, 0).

  (** bfs.py:356-360 *)
  Definition perim_extend (neigh : list nat) (qu : list nat) (qT : nat) (adj : list bool)
    : res (list nat * nat * list bool) :=
    for_each neigh
      (fun n (st : list nat * nat * list bool) =>
         let '(qu, qT, adj) := st in
         let! a := get adj n in
         if a then Ok st
         else
           let! r := push_perim qu qT n in
           let (qu, qT) := r in
           let! adj := set adj n true in
           Ok (qu, qT, adj)) (qu, qT, adj).

  (** bfs.py:316-360: one perimeter cast, stored at position i *)
  Definition perim_cast (indptr indices : list nat) (i : nat) (st : qstate) : res qstate :=
    let '(mkQ qu adj qT new stp) := st in
    let! m := get qu i in
    let! c := get casts m in
    let '(Sm, Tm, Pm) := c in
    let! kK := valid_range_1_two Sm Pm in
    let (k, K) := kK in
    if Nat.ltb 1 (K - k) then
      let Pm := slice Pm k K in
      let! Sppc := ppc_fn Pm (slice Sm k K) in
      let! Tppc := ppc_fn Pm (slice Tm k K) in
      let! neigh := neighbours indptr indices m in
      let! pd := perim_links Pm Sppc Tppc stp neigh in
      let (p0, denom) := pd in
      if Nat.eqb denom 0 then Ok st
      else
        let! p := sdiv p0 (of_nat denom) in
        let! st2 := ppval_1_two p Pm Sppc Tppc 0 in
        let (s, t) := st2 in
        let! stp := set stp m (s, t, p) in
        let! r := perim_extend neigh qu qT adj in
        let '(qu, qT, adj) := r in
        Ok (mkQ qu adj qT (S new) stp)
    else Ok st.

  (** bfs.py:311-365.  [qH] is qH + 1.  One pass works through the positions
      qH, qH-1, .., qT+1 of the source (the bound qT is read once, at the
      start of the pass). *)
  Fixpoint perim_reps (indptr indices : list nat) (n_rep : nat) (qH : nat) (st : qstate) : res qstate :=
    match n_rep with
    | O => Ok st
    | S r =>
        if Nat.ltb (qqT st) qH then
          let bot := qqT st in
          let! st := for_each (rev (seq bot (qH - bot))) (perim_cast indptr indices) st in
          perim_reps indptr indices r bot st
        else Ok st
    end.

  (** bfs.py:220-367.  Returns newly_wet and the mutated (s, t, p). *)
  Definition bfs_conncomp1_wet_perim (loop_fuel : nat) (junk indptr indices : list nat) (root : nat)
    (n_rep : nat) (stp : list (F * F * F)) : res (nat * list (F * F * F)) :=
    let good := map (fun x => isfinite (snd x)) stp in
    let n := length good in
    let qu := firstn n junk in
    let! g := get good root in
    let! st0 :=
      if g then
        let! qu := set qu 0 root in
        let! good' := set good root false in
        Ok (mkP qu 1 good' good n)
      else Ok (mkP qu 0 good good n) in
    let! st := loop loop_fuel (perim_body indptr indices) (st0, 0) in
    (* 299-303: p is set to NaN outside the component; s and t are kept *)
    let! comp := for_each (firstn (pqt st) (pqu st)) (fun j good => set good j true) (repeat false n) in
    let stp := map (fun '((s, t, p), c) => if (c : bool) then (s, t, p) else (s, t, nan)) (combine stp comp) in
    let! st := perim_reps indptr indices n_rep n (mkQ (pqu st) (padj st) (pqT st) 0 stp) in
    Ok (qnew st, qstp st).
End Wet.
