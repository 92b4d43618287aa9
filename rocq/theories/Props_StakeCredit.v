(** What a distribution has credited stays: C254. *)
From Coq Require Import ZArith List Bool Lia Permutation.
From Coq Require Import ZifyBool.
From Verif Require Import Base FMap Decimal DecimalProofs World Token TokenProofs Frame Runs Stake Pool PoolProofs
  Stable StableProofs Rewards Vest Factory Router System SysFrame SysInv SysPool SysSupply SysVest SysStake
  Script Props_Token Props_Pool Props_Vest Props_Stake Props_StakeFair Props_StakeTiming.
Import ListNotations.
Open Scope Z_scope.

(** ** C254 *)
(** Unless something more is distributed in the current second, what a staker can claim of a reward token does not fall
    while that staker neither bonds, unbonds nor claims, whatever others do. *)
Theorem C254_credited_rewards_stay H w c s u rt p l w' y : reachable H w -> stake_at w c s -> claimable w c u rt p ->
  run_if (apart c u u (w_now w)) H w l w' -> claimable w' c u rt y -> p <= y.
Proof.
  intros R E Cp Rn Cy.
  assert (R2 : reachable H w') by (eapply reach_run; [exact R|]; eapply run_if_run; eauto).
  destruct (claim_hist _ _ _ _ _ _ _ R E Cp) as [h Eh].
  pose proof (reach_stake _ _ R _ _ E) as I.
  assert (K : kept c u u rt (w_now w) s h w) by (split; [lia|]; exists s, h; auto).
  destruct (kept_run _ _ _ _ _ _ _ _ _ _ _ Rn R K) as [Ht [s2 [h2 [E2 [Eh2 [D [U _]]]]]]].
  pose proof (reach_stake _ _ R2 _ _ E2) as I2.
  destruct (sv_hist _ _ _ I _ _ Eh) as [S1 Hh]. destruct (sv_hist _ _ _ I2 _ _ Eh2) as [S2 _].
  destruct (claim_days _ _ _ _ _ _ _ _ R E Cp Eh) as [-> _]. destruct (claim_days _ _ _ _ _ _ _ _ R2 E2 Cy Eh2) as [-> B2].
  assert (U1 : last_claim s2 u = last_claim s u /\ stakes_of s2 u = stakes_of s u) by (unfold last_claim, stakes_of; rewrite U; auto).
  destruct U1 as [U1 U2].
  rewrite (sum_upto (one_day s h u) (w_now w) h h2 S1 S2) by (intros; first [apply D; assumption|eapply Hh; eassumption]).
  rewrite (sum_filter (fun d => d <=? w_now w) (one_day s2 h2 u)).
  assert (Q1 : sum_of (one_day s2 h2 u) (filter (fun d => d <=? w_now w) (fkeys h2)) = sum_of (one_day s h u) (filter (fun d => d <=? w_now w) (fkeys h2))).
  { assert (Qd : forall d, d <= w_now w -> one_day s2 h2 u d = one_day s h u d).
    { intros d Ld. unfold one_day. rewrite U1, U2. destruct (D d Ld) as [-> ->]. reflexivity. }
    revert Qd. generalize (w_now w) (fkeys h2). clear. intros t m Qd. induction m as [|d m IH]; [reflexivity|]. simpl.
    destruct (Z.leb_spec d t); simpl; [rewrite Qd by lia|]; lia. }
  rewrite Q1.
  enough (0 <= sum_of (one_day s2 h2 u) (filter (fun d => negb (d <=? w_now w)) (fkeys h2))) by lia.
  apply sum_nonneg. intros d _. unfold one_day. destruct (Z.ltb_spec (last_claim s2 u) d); [|lia].
  destruct (fget d h2) as [A|] eqn:EA; [|lia]. destruct (fget d (s_tsh s2)) as [T|] eqn:ET; [|lia]. destruct (Z.eqb_spec T 0); [lia|].
  pose proof (hist_range _ _ _ _ _ _ _ _ R2 E2 Eh2 EA). pose proof (total_range _ _ _ _ _ _ R2 E2 ET).
  assert (PT : 0 < T) by lia. apply paid_nonneg; auto. eapply B2; eauto.
Qed.
Print Assumptions C254_credited_rewards_stay.
