(** Which answers depend on the time: all queries but those listed in [timeless] give the same
    answer, from the same entries, whatever the time and the ledger number are. *)
From Coq Require Import ZArith List Bool Lia.
From Verif Require Import Base FMap Decimal Curve World Token Stake Pool Stable Rewards Vest Factory Router Extra System.
From Verif Require Import Touch Queries.
Import ListNotations.
Open Scope list_scope.
Open Scope Z_scope.

Definition timeless (q : Query) : bool :=
  match q with
  | QAllowance _ _ _ | QStabSim _ _ _ | QStabRev _ _ _ | QRewards _ _ | QAnnual _ _ | QWithdrawable _ _ _
  | QVestClaimable _ _ _ | QRoute _ _ _ | QRouteRev _ _ _ => false
  | _ => true
  end.

Definition TF {A} (m : TST A) : Prop := forall w n s l,
  m (set_time w n s, l) = match m (w, l) with Ok (a, (w', D)) => Ok (a, (set_time w' n s, D)) | Err x => Err x end.
Lemma tt_bind {A B} (m : TST A) (k : A -> TST B) : TF m -> (forall a, TF (k a)) -> TF (mbind m k).
Proof. intros H K w n s l. unfold mbind. rewrite H. destruct (m (w, l)) as [[a [w' D]]|]; auto. apply K. Qed.
Lemma tt_tf {A} (m : ST World A) : (forall w n s, m (set_time w n s) = match m w with Ok (a, w') => Ok (a, set_time w' n s) | Err x => Err x end) -> TF (tf m).
Proof. intros H w n s l. unfold tf. cbn. rewrite H. destruct (m w) as [[a w']|]; reflexivity. Qed.
Lemma tt_ret {A} (a : A) : TF (mret a). Proof. intros w n s l. reflexivity. Qed.
Lemma tt_fail {A} e : TF (@mfail _ A e). Proof. intros w n s l. reflexivity. Qed.
Lemma tt_lift {A} (r : res A) : TF (mlift r). Proof. intros w n s l. unfold mlift. destruct r; reflexivity. Qed.
Lemma tt_guard b e : TF (mguard b e). Proof. intros w n s l. unfold mguard. destruct b; reflexivity. Qed.
Lemma tt_note D : TF (tnote D). Proof. intros w n s l. reflexivity. Qed.
Ltac rdt := apply tt_tf; intros w n s; cbn; unfold get_pool, get_stable, get_stake, get_rewards, get_vest, get_fact, get_hop, get_trader, tok_balance, tok_decimals, enter, is_code, mget, mbind, mguard, mret, get_tok; cbn;
  repeat match goal with |- context [match ?t with _ => _ end] => destruct t end; try reflexivity.
Lemma tt_enter c k : TF (tf (enter c k)). Proof. rdt. Qed.
Lemma tt_pool c : TF (tf (get_pool c)). Proof. rdt. Qed.
Lemma tt_stable c : TF (tf (get_stable c)). Proof. rdt. Qed.
Lemma tt_stake c : TF (tf (get_stake c)). Proof. rdt. Qed.
Lemma tt_rewards c : TF (tf (get_rewards c)). Proof. rdt. Qed.
Lemma tt_vest c : TF (tf (get_vest c)). Proof. rdt. Qed.
Lemma tt_fact c : TF (tf (get_fact c)). Proof. rdt. Qed.
Lemma tt_hop c : TF (tf (get_hop c)). Proof. rdt. Qed.
Lemma tt_trader c : TF (tf (get_trader c)). Proof. rdt. Qed.
Lemma tt_bal c u : TF (tf (tok_balance c u)).
Proof. apply tt_tf. intros w n s. unfold tok_balance, mbind, get_tok. cbn. destruct (fget c (w_tok w)); reflexivity. Qed.
Lemma tt_dec c : TF (tf (tok_decimals c)).
Proof. apply tt_tf. intros w n s. unfold tok_decimals, mbind, get_tok. cbn. destruct (fget c (w_tok w)); reflexivity. Qed.
Lemma tt_any {A} p (mp ms : TST A) : TF mp -> TF ms ->
  TF (w <- tf mget ;; match fget p (w_code w) with Some KPool => mp | Some KStable => ms | _ => mfail EHost end).
Proof.
  intros H K w n s l. unfold mbind, tf, mget. cbn. destruct (fget p (w_code w)) as [[]|]; try reflexivity; auto.
Qed.
Create HintDb ttd.
#[local] Hint Resolve tt_ret tt_fail tt_lift tt_guard tt_enter tt_pool tt_stable tt_stake tt_rewards tt_vest tt_fact tt_hop tt_trader tt_bal tt_dec : ttd.
Ltac tw := cbv zeta; lazymatch goal with
  | |- TF (mbind _ _) => apply tt_bind; [tw | intros ?; tw]
  | |- TF (match ?t with _ => _ end) => destruct t; tw
  | |- TF (come _) => apply tt_note | |- TF (seen _) => apply tt_note | |- TF (instP _) => apply tt_note
  | |- TF (got _ _) => apply tt_note | |- TF (looks _ _) => apply tt_note | |- TF (peek _ _) => apply tt_note
  | |- TF (tnote _) => apply tt_note
  | |- _ => solve [auto with ttd] end.
Lemma tt_balance t u : TF (z_balance t u). Proof. unfold z_balance. tw. Qed.
Lemma tt_decimals t : TF (z_decimals t). Proof. unfold z_decimals. tw. Qed.
Lemma tt_pool_query p ks : TF (z_pool_query p ks). Proof. unfold z_pool_query, z_get_pool. tw. Qed.
Lemma tt_stable_query p : TF (z_stable_query p). Proof. unfold z_stable_query. tw. Qed.
Lemma tt_stake_query p ks pk : TF (z_stake_query p ks pk). Proof. unfold z_stake_query, z_get_stake. tw. Qed.
Lemma tt_rewards_query p ks ls : TF (z_rewards_query p ks ls). Proof. unfold z_rewards_query, z_get_rewards. tw. Qed.
Lemma tt_vest_query p ks : TF (z_vest_query p ks). Proof. unfold z_vest_query, z_get_vest. tw. Qed.
Lemma tt_fact_query p ks : TF (z_fact_query p ks). Proof. unfold z_fact_query, z_get_fact. tw. Qed.
Lemma tt_trader_query p ks : TF (z_trader_query p ks). Proof. unfold z_trader_query, z_get_trader. tw. Qed.
#[local] Hint Resolve tt_balance tt_decimals tt_pool_query tt_stable_query tt_stake_query tt_rewards_query tt_vest_query tt_fact_query tt_trader_query : ttd.
Lemma tt_pool_info p : TF (z_pool_info p). Proof. unfold z_pool_info. tw. Qed.
Lemma tt_pool_simulate p o a : TF (z_pool_simulate p o a). Proof. unfold z_pool_simulate. tw. Qed.
Lemma tt_pool_reverse p o a : TF (z_pool_reverse p o a). Proof. unfold z_pool_reverse. tw. Qed.
Lemma tt_pool_share p a : TF (z_pool_share p a). Proof. unfold z_pool_share. tw. Qed.
Lemma tt_stable_info p : TF (z_stable_info p). Proof. unfold z_stable_info. tw. Qed.
Lemma tt_stable_share p a : TF (z_stable_share p a). Proof. unfold z_stable_share. tw. Qed.
Lemma tt_stable_total p : TF (z_stable_total p). Proof. unfold z_stable_total. tw. Qed.
Lemma tt_staked k u : TF (z_staked k u). Proof. unfold z_staked. tw. Qed.
#[local] Hint Resolve tt_pool_info tt_pool_simulate tt_pool_reverse tt_pool_share tt_stable_info tt_stable_share tt_stable_total tt_staked : ttd.
Lemma tt_any_info p : TF (z_any_info p). Proof. apply tt_any; auto with ttd. Qed.
Lemma tt_any_share p a : TF (z_any_share p a). Proof. apply tt_any; auto with ttd. Qed.
Lemma tt_pair f a b : TF (z_fact_pool_by_pair f a b). Proof. unfold z_fact_pool_by_pair. tw. Qed.
#[local] Hint Resolve tt_any_info tt_any_share tt_pair : ttd.
Lemma tt_distributed r a : TF (z_distributed r a). Proof. unfold z_distributed. tw. Qed.
Lemma tt_undistributed r a : TF (z_undistributed r a). Proof. unfold z_undistributed. tw. Qed.
Lemma tt_vest_balance v u : TF (z_vest_balance v u). Proof. unfold z_vest_balance. tw. Qed.
Lemma tt_vest_info v u i : TF (z_vest_info v u i). Proof. unfold z_vest_info. tw. Qed.
Lemma tt_all_from f c u m : forall i, TF (z_all_from f c u i m). Proof. induction f; intros i; cbn [z_all_from]; tw. Qed.
#[local] Hint Resolve tt_all_from : ttd.
Lemma tt_vest_all v u : TF (z_vest_all v u). Proof. unfold z_vest_all. tw. Qed.
Lemma tt_details f p : TF (z_details f p). Proof. unfold z_details. tw. Qed.
Lemma tt_rows l : TF (z_rows l). Proof. induction l; cbn [z_rows]; tw. Qed.
Lemma tt_portfolio u b l : TF (z_portfolio l u b). Proof. induction l; cbn [z_portfolio]; tw. Qed.
#[local] Hint Resolve tt_rows tt_portfolio : ttd.
Lemma tt_all_details f : TF (z_all_details f). Proof. unfold z_all_details. tw. Qed.
Lemma tt_folio f u b : TF (z_folio f u b). Proof. unfold z_folio. tw. Qed.
Lemma tt_asset t u : TF (z_asset t u). Proof. unfold z_asset. tw. Qed.
#[local] Hint Resolve tt_asset : ttd.
Lemma tt_trader_balances d : TF (z_trader_balances d). Proof. unfold z_trader_balances. tw. Qed.
Lemma tt_trader_out d : TF (z_trader_out d). Proof. unfold z_trader_out. tw. Qed.
#[local] Hint Resolve tt_distributed tt_undistributed tt_vest_balance tt_vest_info tt_vest_all tt_details tt_all_details tt_folio tt_trader_balances tt_trader_out : ttd.
Lemma tt_zanswer q : timeless q = true -> TF (zanswer q).
Proof. destruct q; intros T; try discriminate T; cbn [zanswer]; unfold amap; tw. Qed.
