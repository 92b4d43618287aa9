(** Stakes younger than a day: C256. *)
From Coq Require Import ZArith List Bool Lia.
From Verif Require Import Base FMap Decimal DecimalProofs World Token TokenProofs Frame Runs Stake Pool PoolProofs
  Stable StableProofs Rewards Vest Factory Router System SysFrame SysInv SysPool SysSupply SysVest SysStake
  Script Props_Token Props_Pool Props_Vest Props_Stake Props_StakeFair.
Import ListNotations.
Open Scope Z_scope.

(** ** C256 *)
(** Nobody earns with stakes that are all younger than a day, however large they are and whatever was distributed. *)
Theorem C256_young_stakes_earn_nothing H w c s u rt y : reachable H w -> stake_at w c s -> claimable w c u rt y ->
  (forall k, In k (stakes_of s u) -> w_now w - k_ts k < 86400) -> y = 0.
Proof.
  intros R E Cy Yg. destruct (claim_hist _ _ _ _ _ _ _ R E Cy) as [h Eh].
  pose proof (reach_stake _ _ R _ _ E) as I. destruct (sv_hist _ _ _ I _ _ Eh) as [Sh Hh].
  destruct (claim_days _ _ _ _ _ _ _ _ R E Cy Eh) as [-> B].
  assert (Z0 : forall l, (forall d, In d l -> one_day s h u d = 0) -> sum_of (one_day s h u) l = 0).
  { induction l as [|d l IH]; intros F; [reflexivity|]. cbn [sum_of]. rewrite F by (left; auto). rewrite IH; [lia|]. intros; apply F; right; auto. }
  apply Z0. intros d _. unfold one_day. destruct (Z.ltb_spec (last_claim s u) d); [|auto].
  destruct (fget d h) as [A|] eqn:EA; [|auto]. destruct (fget d (s_tsh s)) as [T|] eqn:ET; [|auto]. destruct (Z.eqb_spec T 0); [auto|].
  pose proof (total_range _ _ _ _ _ _ R E ET). assert (PT : 0 < T) by lia.
  pose proof (B _ _ _ EA ET PT ltac:(assumption)) as F. destruct (Hh _ _ EA) as [_ [Pd _]].
  clear B. unfold paid. revert Yg F. induction (stakes_of s u) as [|k m IH]; intros Yg F; [reflexivity|]. cbn [sum_of].
  rewrite IH; [|intros; apply Yg; right; auto|intros ? ?; apply F; right; auto].
  destruct (F k (or_introl eq_refl)) as [_ Lk]. pose proof (Yg k (or_introl eq_refl)).
  unfold reward. replace ((d - k_ts k) / 86400) with 0 by (symmetry; apply Z.div_small; lia).
  change (60 <=? 0) with false. cbv iota. change (0 * 10 ^ 18 / 60) with 0. rewrite Z.mul_0_r. reflexivity.
Qed.
Print Assumptions C256_young_stakes_earn_nothing.
