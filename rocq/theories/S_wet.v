(** * Specification vocabulary for the wetting searches *)
From Coq Require Import List Bool ZArith.
From Verif Require Import Num Res Arr M_ppinterp M_traj S_graph.
Import ListNotations.

(** the computation finishes with a result satisfying P, or raises an exception satisfying Q *)
Definition okor {A} (P : A -> Prop) (Q : exn -> Prop) (x : res A) : Prop :=
  match x with Ok a => P a | Err e => Q e end.

Section Wet.
  Context {F : Type} {Nm : Num F}.

  (** the surface exists (finite pressure) at node n *)
  Definition wet_at (stp : list (F * F * F)) (n : nat) : Prop :=
    exists s t p, nth_error stp n = Some (s, t, p) /\ isfinite p = true.

  Variables (eos : F -> F -> F -> res F) (ppc_fn : list F -> list F -> res (list (list F))) (fuel : nat).
  Variables (casts : list (list F * list F * list F)) (tol_p : F) (p_ml : list F).

  (** r is the outcome of the neutral tangent plane calculation
      (traj.ntp_bottle_to_cast) from bottle b to cast n *)
  Definition ntp_to (b : F * F * F) (n : nat) (r : res (F * F * F)) : Prop :=
    exists S T P, nth_error casts n = Some (S, T, P)
      /\ (let '(s, t, p) := b in ntp_bottle_to_cast_pub eos ppc_fn fuel s t p S T P tol_p) = r.

  (** r is a point on a cast below the mixed layer of cast n *)
  Definition below_ml (n : nat) (p : F) : Prop :=
    exists ml, nth_error p_ml n = Some ml /\ isfinite p = true /\ ltb ml p = true.
  Definition accepted (n : nat) (r : F * F * F) : Prop := let '(_, _, p) := r in below_ml n p.

  (** okb holds of the wet bottles in stp and of every wet bottle that NTP links lead to from there *)
  Definition closed (okb : F * F * F -> Prop) (stp : list (F * F * F)) : Prop :=
    (forall n s t p, nth_error stp n = Some (s, t, p) -> isfinite p = true -> okb (s, t, p))
    /\ (forall b n s t p, okb b -> ntp_to b n (Ok (s, t, p)) -> isfinite p = true -> okb (s, t, p)).

  (** the exception e comes from an NTP calculation that starts from a bottle
      with finite pressure, in every set closed as above *)
  Definition blame (okb : F * F * F -> Prop) (e : exn) : Prop :=
    exists s t p n, isfinite p = true /\ okb (s, t, p) /\ ntp_to (s, t, p) n (Err e).

  (** the trimmed data and interpolants of cast m; fails if fewer than two valid data sites *)
  Definition cast_ppc (m : nat) (Pm : list F) (Sppc Tppc : list (list F)) : Prop :=
    exists S T P k K, nth_error casts m = Some (S, T, P) /\ valid_range_1_two S P = Ok (k, K)
      /\ 1 < K - k /\ Pm = slice P k K
      /\ ppc_fn Pm (slice S k K) = Ok Sppc /\ ppc_fn Pm (slice T k K) = Ok Tppc.
  Definition cast_empty (m : nat) : Prop :=
    exists S T P k K, nth_error casts m = Some (S, T, P) /\ valid_range_1_two S P = Ok (k, K) /\ K - k <= 1.

  (** r is the pressure of the NTP link from the surface at node n to cast m *)
  Definition link_p (stp : list (F * F * F)) (n m : nat) (r : res F) : Prop :=
    exists Pm Sppc Tppc s t p, cast_ppc m Pm Sppc Tppc
      /\ nth_error stp n = Some (s, t, p) /\ isfinite p = true
      /\ ntp_bottle_to_cast_ppc eos fuel tol_p s t p Pm Sppc Tppc = r.

  (** cast m was wetted: its pressure is the mean of the pressures [map snd ps] of
      NTP links from adjacent surface points [map fst ps] that are below the
      mixed layer at their origin (sic), among which are all such links from
      the nodes in C; s and t are interpolated.  [near m] lists the nodes next to m; each is
      used as often as it is listed, or not at all. *)
  Definition wetted (near : nat -> list nat) (C : nat -> Prop) (stp : list (F * F * F)) (m : nat) : Prop :=
    exists Pm Sppc Tppc ps s t p,
      cast_ppc m Pm Sppc Tppc /\ ps <> []
      /\ sdiv (fold_left add (map snd ps) (lit 0%Z 0%Z)) (of_nat (length ps)) = Ok p
      /\ ppval_1_two p Pm Sppc Tppc 0 = Ok (s, t)
      /\ nth_error stp m = Some (s, t, p)
      /\ (forall n q, In (n, q) ps -> link_p stp n m (Ok q) /\ below_ml n q)
      /\ (forall n q, In n (near m) -> C n -> link_p stp n m (Ok q) -> below_ml n q -> In (n, q) ps)
      /\ exists used, map fst ps = filter used (near m).

  (** no link from a node in C reaches cast m *)
  Definition unlinkable (E : nat -> nat -> Prop) (C : nat -> Prop) (stp : list (F * F * F)) (m : nat) : Prop :=
    cast_empty m \/ forall n, E m n -> C n -> exists q, link_p stp n m (Ok q) /\ ~ below_ml n q.

  (** p is the mean of pressures of at most n NTP links to a cast from bottles satisfying okb *)
  Definition mean_link (okb : F * F * F -> Prop) (n : nat) (Pm : list F) (Sppc Tppc : list (list F)) (p : F) : Prop :=
    exists qs : list F, qs <> [] /\ length qs <= n
      /\ (forall q, In q qs -> isfinite q = true /\ exists sB tB pB, okb (sB, tB, pB) /\ isfinite pB = true
            /\ ntp_bottle_to_cast_ppc eos fuel tol_p sB tB pB Pm Sppc Tppc = Ok q)
      /\ sdiv (fold_left add qs (lit 0%Z 0%Z)) (of_nat (length qs)) = Ok p.

  (** okb holds of the wet bottles in stp and of every bottle interpolated at the mean of links from such bottles,
      no more than there are nodes next to the cast *)
  Definition closed_p (near : nat -> list nat) (okb : F * F * F -> Prop) (stp : list (F * F * F)) : Prop :=
    (forall n s t p, nth_error stp n = Some (s, t, p) -> isfinite p = true -> okb (s, t, p))
    /\ (forall m Pm Sppc Tppc s t p, cast_ppc m Pm Sppc Tppc -> mean_link okb (length (near m)) Pm Sppc Tppc p ->
          ppval_1_two p Pm Sppc Tppc 0 = Ok (s, t) -> isfinite p = true -> okb (s, t, p)).

  (** the exception e comes from the interpolants of a cast, an NTP calculation
      from a bottle with finite pressure, the mean, or the evaluation at the mean;
      the bottles are in every set closed as above *)
  Definition blame_p (near : nat -> list nat) (okb : F * F * F -> Prop) (e : exn) : Prop :=
    (exists S T P k K m, nth_error casts m = Some (S, T, P) /\ valid_range_1_two S P = Ok (k, K) /\ 1 < K - k
       /\ (ppc_fn (slice P k K) (slice S k K) = Err e \/ ppc_fn (slice P k K) (slice T k K) = Err e))
    \/ exists m Pm Sppc Tppc, cast_ppc m Pm Sppc Tppc
       /\ ((exists s t p, isfinite p = true /\ okb (s, t, p)
              /\ ntp_bottle_to_cast_ppc eos fuel tol_p s t p Pm Sppc Tppc = Err e)
           \/ (exists x n, n < length (near m) /\ sdiv x (of_nat (S n)) = Err e)
           \/ (exists p, mean_link okb (length (near m)) Pm Sppc Tppc p /\ ppval_1_two p Pm Sppc Tppc 0 = Err e)).
End Wet.
