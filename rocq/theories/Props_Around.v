(** Trading around others in stable pools: C252. *)
From Coq Require Import ZArith List Bool Lia.
From Verif Require Import Base FMap Decimal Curve World Token TokenProofs Frame Stake Pool Stable StableProofs Rewards Vest Factory Router System
  SysFrame SysInv SysStable SysSupply Props_Token Props_Stable Props_StableHistory.
Import ListNotations.
Open Scope Z_scope.

(** A trader with [a] units, of whatever tokens, makes [n] swaps in stable pools with equally many (at most eight) decimals
    on both sides, offering each time at most what is at hand, and is charged [f] of commission on what the swaps return;
    afterwards [b] units are at hand.  Between the swaps anybody, the trader included, does anything else, for any time. *)
Inductive trades (H : Addr -> Salt -> Addr) (u : Addr) : World -> Z -> Z -> Z -> World -> Z -> Prop :=
| tr_end w a : trades H u w a 0 0 w a
| tr_others w l w1 a n f w2 b : run H w l w1 -> trades H u w1 a n f w2 b -> trades H u w a n f w2 b
| tr_swap w e c p o x mi ms dl mf y q w1 a n f w2 b :
    e_hash e = H -> stable_at w c p -> l_preca p = l_precb p -> l_preca p <= 8 -> x <= a ->
    stable_simulate_swap c o x w = Ok (q, w) -> stable_swap e None c u o x mi ms dl mf w = Ok (y, w1) ->
    trades H u w1 (a - x + y) n f w2 b -> trades H u w a (n + 1) (f + ss_comm q) w2 b.

(** ** C252 *)
(** However the swaps are placed among those of others, the trader ends up with at most what was there at first, less all
    commissions, plus two units of rounding for each swap.  In particular trading before and after somebody else's swap gains
    at most four units, however large that swap is and whatever it tolerates. *)
Theorem C252_trading_around_others_does_not_pay H u w a n f w' b : reachable H w -> trades H u w a n f w' b -> b + f <= a + 2 * n.
Proof.
  intros R T. induction T as [w a|w l w1 a n f w2 b Rn T IH|w e c p o x mi ms dl mf y q w1 a n f w2 b Eh Hp Eq P8 L Q X T IH].
  - lia.
  - apply IH. eapply reach_run; eauto.
  - assert (R1 : reachable H w1).
    { apply (reach_tx H w e (CStableSwap c u o x mi ms dl mf) w1 R Eh). simpl. unfold drop, mbind. rewrite X. reflexivity. }
    specialize (IH R1). assert (N : None <> Some c) by discriminate.
    destruct (s_swap_on _ _ _ _ _ _ _ _ _ _ _ _ _ _ R Hp Eq P8 X) as [p1 [E1 [_ [_ [_ [_ [k [_ [G [_ S]]]]]]]]]].
    destruct (C31_stable_quote_is_execution _ _ _ _ _ _ _ R Q) as [_ [_ F]].
    destruct (F _ _ _ _ _ _ _ _ _ N X) as [-> [p0 [p2 [x0 [y0 [b0 [E0 [E2 [Sd [Sd' _]]]]]]]]]].
    unfold stable_at in *. rewrite Hp in E0. rewrite E1 in E2. inversion E0; subst p0. inversion E2; subst p2.
    assert (Sm : forall r o x y b, lside r o x y b -> l_ra r + l_rb r = x + y) by (clear; intros r o x y b [[_ [_ [-> ->]]]|[_ [_ [_ [-> ->]]]]]; lia).
    pose proof (Sm _ _ _ _ _ Sd). pose proof (Sm _ _ _ _ _ Sd'). lia.
Qed.
Print Assumptions C252_trading_around_others_does_not_pay.

(** ** A concrete case is in Props_AroundCases. *)
