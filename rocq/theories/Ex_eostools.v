(** * Choosing an equation of state, and memoisation: concrete cases *)
From Coq Require Import String ZArith Reals Lra List.
From Verif Require Import Num XR SF Res M_eos_base M_gsw M_eostools M_cache S_eos S_eostools S_cache.
Import ListNotations.

(** z metres of water of density 1027 under gravity 9.81 *)
Example named_gsw : named "gsw" teos_v (fun _ _ _ => True).
Proof. right. right. auto. Qed.
Example named_jmd95 : named "jmd95" jm_rho jm_dom.
Proof. left. auto. Qed.

(** an equation of state in binary64, with and without the Boussinesq constants *)
Definition run1 (r : res fn) (s t p : f64) : res f64 :=
  match r with Ok (F1 f) => f s t p | Ok (F2 _) => Err TypeError | Err e => Err e end.
Example bsq_f64 : (* grav = 10, rho_c = 1000: one metre is one decibar *)
  run1 (make_eos sdiv (AStr "gsw") (Some (lit 10 0)) (Some (lit 1000 0))) (lit 35 0) (lit 25 0) (lit 2000 0)
  = Ok (lit 969429311180351 (-18)) /\
  run1 (make_eos sdiv (AStr "gsw") None (Some (lit 1000 0))) (lit 35 0) (lit 25 0) (lit 2000 0)
  = Ok (lit 969429311180351 (-18)).
Proof. split; vm_compute; reflexivity. Qed.

(** a cache of two entries: a b a c b, where b is displaced by c and computed again *)
Example lru_run :
  let raw (k : nat) : res nat := if Nat.eqb k 7 then Err ValueError else Ok (k * k)%nat in
  calls Nat.eqb raw 2 [1; 2; 1; 3; 7; 2]%nat [] =
  ([(Ok 1, true); (Ok 4, true); (Ok 1, false); (Ok 9, true); (Err ValueError, true); (Ok 4, true)]%nat, [(2, 4); (3, 9)]%nat).
Proof. reflexivity. Qed.

(** 0.0 == -0.0, but the functions made from them differ *)
Definition recip : fn := F1 (fun s t p : f64 => adiv (lit 1 0) p).
Definition mz : f64 := opp (lit 0 0).
Lemma signed_zero : exists (raw : f64 -> res fn) history,
  (forall g, raw g = Ok (make_bsq recip g (lit 1 0) 0)) /\
  map fst (fst (calls eqb raw 10 history [])) <> map raw history.
Proof.
  exists (fun g => Ok (make_bsq recip g (lit 1 0) 0)), [lit 0 0; mz]. split; [reflexivity|].
  intro H. 
  assert (E : eqb (lit 0 0) mz = true) by (vm_compute; reflexivity).
  cbv beta iota delta [calls call take_entry firstn fst snd map] in H. rewrite E in H.
  assert (H2 : run1 (Ok (make_bsq recip (lit 0 0) (lit 1 0) 0)) (lit 0 0) (lit 0 0) (lit 1 0)
             = run1 (Ok (make_bsq recip mz (lit 1 0) 0)) (lit 0 0) (lit 0 0) (lit 1 0)).
  { f_equal. exact (f_equal (fun l => nth 1 l (Err TypeError)) H). }
  vm_compute in H2. discriminate.
Qed.
