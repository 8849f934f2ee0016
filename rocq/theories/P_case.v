(** * Names in capitals *)
From Coq Require Import Ascii String List Bool PeanoNat.
From Verif Require Import Num Res M_omega S_omega.
Import ListNotations.

Fixpoint no_capitals (w : string) : bool :=
  match w with EmptyString => true | String c r => Ascii.eqb (lower_ascii c) c && no_capitals r end.
Lemma poisson_small : no_capitals "poisson" = true. Proof. reflexivity. Qed.
Lemma gradient_small : no_capitals "gradient" = true. Proof. reflexivity. Qed.

Lemma capital_lower c d : capital c = Some d -> lower_ascii d = c.
Proof.
  unfold capital. destruct (find _ _) as [[a b]|] eqn:E; [|discriminate]. cbn [option_map snd]. injection 1 as <-.
  apply find_some in E. destruct E as [Hin Ha]. apply Ascii.eqb_eq in Ha. cbn [fst] in Ha. subst a. cbn in Hin.
  repeat (destruct Hin as [Hin|Hin]; [injection Hin as <- <-; reflexivity|]). contradiction.
Qed.
Lemma lower_capital d : lower_ascii d = d \/ capital (lower_ascii d) = Some d.
Proof. destruct d as [[] [] [] [] [] [] [] []]; first [left; reflexivity|right; reflexivity]. Qed.

Lemma spells_lower w s : spells w s -> no_capitals w = true -> lower s = w.
Proof.
  induction 1 as [|c w s _ IH|c d w s H _ IH]; cbn [no_capitals lower]; intros Hw; [reflexivity|..]; apply andb_true_iff in Hw; destruct Hw as [Hc Hw].
  - apply Ascii.eqb_eq in Hc. now rewrite Hc, (IH Hw).
  - now rewrite (capital_lower _ _ H), (IH Hw).
Qed.
Lemma lower_spells s : spells (lower s) s.
Proof.
  induction s as [|c s IH]; cbn [lower]; [constructor|]. destruct (lower_capital c) as [E|E]; [rewrite E; constructor; exact IH|].
  exact (spells_capital _ _ _ _ E IH).
Qed.
