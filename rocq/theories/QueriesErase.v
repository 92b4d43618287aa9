(** The recorded queries of Queries.v answer what the query functions of the model answer, and
    leave the ledger as it is. *)
From Coq Require Import ZArith List Bool Lia.
From Verif Require Import Base FMap Decimal Curve World Token Stake Pool Stable Rewards Vest Factory Router Extra Touch TouchErase Queries.
Import ListNotations.
Open Scope list_scope.
Open Scope Z_scope.

Lemma tc_ext {A} (m : TST A) (m0 m1 : ST World A) : touches m m0 -> (forall w, m0 w = m1 w) -> touches m m1.
Proof. intros H E w l. specialize (H w l). rewrite E in H. exact H. Qed.
Lemma tc_then {A B} (m : TST A) (m0 : ST World A) D (k : A -> TST B) (k0 : A -> ST World B) :
  touches m m0 -> (forall a, touches (k a) (k0 a)) -> touches (mbind m (fun a => mbind (tnote D) (fun _ => k a))) (mbind m0 k0).
Proof. intros H K. apply tc_bind; auto. intros a. apply tc_note, K. Qed.

Ltac q1 := first [tc | match goal with
  | |- touches (match ?x with _ => _ end) (match ?x with _ => _ end) => destruct x end].

Lemma tc_allowance t f s : touches (z_allowance t f s) (tok_allowance t f s).
Proof. apply tc_ret, tc_tf. Qed.

(** pools *)
Lemma tc_pool_query p ks : touches (z_pool_query p ks) (enter p KPool ;; get_pool p).
Proof. unfold z_pool_query. repeat tc. Qed.
#[export] Hint Resolve tc_pool_query tc_allowance : touch.
Lemma tc_q {A B C} (m : TST B) (m1 : ST World A) (m2 : ST World B) (k : B -> TST C) (k0 : B -> ST World C) :
  touches m (mbind m1 (fun _ => m2)) -> (forall a, touches (k a) (k0 a)) -> touches (mbind m k) (mbind m1 (fun _ => mbind m2 k0)).
Proof.
  intros H K. apply tc_ext with (m0 := mbind (mbind m1 (fun _ => m2)) k0); [apply tc_bind; auto|].
  intros w. unfold mbind. destruct (m1 w) as [[a s']|]; auto.
Qed.
Ltac viaq := apply tc_q; [solve [auto with touch] | intros ?; repeat q1].
Lemma tc_pool_simulate p o a : touches (z_pool_simulate p o a) (pool_simulate_swap p o a).
Proof. unfold z_pool_simulate, pool_simulate_swap. viaq. Qed.
Lemma tc_pool_reverse p o a : touches (z_pool_reverse p o a) (pool_simulate_reverse p o a).
Proof. unfold z_pool_reverse, pool_simulate_reverse. viaq. Qed.
Lemma tc_pool_share p a : touches (z_pool_share p a) (pool_query_share p a).
Proof. unfold z_pool_share, pool_query_share. viaq. Qed.
Lemma tc_stable_query p : touches (z_stable_query p) (enter p KStable ;; get_stable p).
Proof. unfold z_stable_query. repeat tc. Qed.
#[export] Hint Resolve tc_pool_simulate tc_pool_reverse tc_pool_share tc_stable_query : touch.
Lemma tc_stable_simulate p o a : touches (z_stable_simulate p o a) (stable_simulate_swap p o a).
Proof. unfold z_stable_simulate, stable_simulate_swap. viaq. Qed.
Lemma tc_stable_reverse p o a : touches (z_stable_reverse p o a) (stable_simulate_reverse p o a).
Proof. unfold z_stable_reverse, stable_simulate_reverse. viaq. Qed.
Lemma tc_stable_share p a : touches (z_stable_share p a) (stable_query_share p a).
Proof. unfold z_stable_share, stable_query_share. viaq. Qed.
#[export] Hint Resolve tc_stable_simulate tc_stable_reverse tc_stable_share : touch.
Lemma tc_any_info p : touches (z_any_info p) (any_pool_info p).
Proof.
  unfold z_any_info, any_pool_info, pool_query, stable_query, z_pool_info, z_stable_info. repeat q1;
    (apply tc_bind; [solve [auto with touch] | intros ?; repeat q1]).
Qed.
Lemma tc_any_share p a : touches (z_any_share p a) (any_query_share p a).
Proof. unfold z_any_share, any_query_share. repeat q1. Qed.
Lemma tc_any_simulate p o a : touches (z_any_simulate p o a) (any_simulate p o a).
Proof. unfold z_any_simulate, any_simulate. repeat q1. Qed.
Lemma tc_any_reverse p o a : touches (z_any_reverse p o a) (any_reverse p o a).
Proof. unfold z_any_reverse, any_reverse. repeat q1. Qed.
#[export] Hint Resolve tc_any_info tc_any_share tc_any_simulate tc_any_reverse : touch.

(** stake, stake_rewards, vesting *)
Lemma tc_stake_query k ks pk : touches (z_stake_query k ks pk) (enter k KStake ;; get_stake k).
Proof. unfold z_stake_query. apply tc_bind; [auto with touch | intros ?]. apply tc_note. apply tc_ret. auto with touch. Qed.
#[export] Hint Resolve tc_stake_query : touch.
Lemma tc_staked k u : touches (z_staked k u) (stake_query_staked k u).
Proof. unfold z_staked, stake_query_staked. viaq. Qed.
Lemma tc_query_pending self s t b l : touches (z_query_pending self s t b l) (mlift (query_pending s t b l)).
Proof.
  induction l as [|a tl IH]; [apply tc_mret|]. intros w l. cbn [z_query_pending query_pending]. unfold rbind, mbind, mlift, got, tnote. cbn [fst snd].
  destruct (pending_rewards s t a b) as [p|]; [|reflexivity]. specialize (IH w (l ++ got_notes self [YHist a; YTotHist])). unfold mlift in IH.
  destruct (query_pending s t b tl) as [r|]; [destruct IH as [D E]; unfold TST in *; setoid_rewrite E | setoid_rewrite IH; reflexivity].
  exists (got_notes self [YHist a; YTotHist] ++ D). rewrite app_assoc. reflexivity.
Qed.
#[export] Hint Resolve tc_staked tc_query_pending : touch.
Lemma tc_stake_rewards k u : touches (z_stake_rewards k u) (stake_query_rewards k u).
Proof. unfold z_stake_rewards, stake_query_rewards. viaq. Qed.
Lemma tc_rewards_query k ks ls : touches (z_rewards_query k ks ls) (enter k KRewards ;; get_rewards k).
Proof. unfold z_rewards_query. repeat tc. Qed.
#[export] Hint Resolve tc_stake_rewards tc_rewards_query : touch.
Lemma tc_annualized r n : touches (z_annualized r n) (rewards_annualized r n).
Proof. unfold z_annualized, rewards_annualized. viaq. Qed.
Lemma tc_withdrawable r u b : touches (z_withdrawable r u b) (rewards_query r u b).
Proof. unfold z_withdrawable, rewards_query. viaq. Qed.
Lemma tc_vest_query v ks : touches (z_vest_query v ks) (enter v KVest ;; get_vest v).
Proof. unfold z_vest_query. repeat tc. Qed.
#[export] Hint Resolve tc_annualized tc_withdrawable tc_vest_query : touch.
Lemma tc_vest_claimable v u i : touches (z_vest_claimable v u i) (vest_available v u i).
Proof.
  unfold z_vest_claimable, vest_available. apply tc_q; [auto with touch | intros x]. apply tc_bind; [auto with touch | intros t].
  apply tc_ret. auto with touch.
Qed.
Lemma tc_all_from f c u m : forall i, touches (z_all_from f c u i m) (mret (all_from f i m)).
Proof.
  induction f as [|f IH]; intros i; [apply tc_mret|]. cbn [z_all_from all_from]. apply tc_note. destruct (fget i m); [|apply tc_mret].
  intros w l. specialize (IH (i + 1) w l). unfold mret, mbind in *. destruct IH as [D E]. rewrite E. eauto.
Qed.
#[export] Hint Resolve tc_vest_claimable tc_all_from : touch.
Lemma tc_vest_all v u : touches (z_vest_all v u) (vest_query_all v u).
Proof. unfold z_vest_all, vest_query_all. viaq. Qed.
#[export] Hint Resolve tc_vest_all : touch.

(** factory, multihop, trader *)
Lemma tc_fact_query f ks : touches (z_fact_query f ks) (enter f KFact ;; get_fact f).
Proof. unfold z_fact_query. repeat tc. Qed.
Lemma tc_portfolio u b l : touches (z_portfolio l u b) (portfolio l u b).
Proof. induction l as [|p tl IH]; cbn [z_portfolio portfolio]; repeat q1. Qed.
#[export] Hint Resolve tc_fact_query tc_portfolio : touch.
Lemma tc_folio f u b : touches (z_folio f u b) (fact_portfolio f u b).
Proof. unfold z_folio, fact_portfolio. viaq. Qed.
Lemma tc_rows l : touches (z_rows l) (r <- pools_details l ;; mret (List.combine l r)).
Proof.
  induction l as [|p tl IH]; cbn [z_rows pools_details]; [apply tc_skip with (a := @nil PoolInfo) (k := fun r => mret (List.combine (@nil Addr) r)); apply tc_mret|].
  eapply tc_ext with (m0 := i <- any_pool_info p ;; r <- (r <- pools_details tl ;; mret (List.combine tl r)) ;; mret ((p, i) :: r)).
  { apply tc_bind; [auto with touch | intros i]. apply tc_bind; [exact IH | intros r; apply tc_mret]. }
  intros w. unfold mbind, mret. destruct (any_pool_info p w) as [[i w']|]; auto. destruct (pools_details tl w') as [[r w2]|]; auto.
Qed.
#[export] Hint Resolve tc_folio tc_rows : touch.
Lemma tc_hop_sims f ops : forall a, touches (z_hop_sims f ops a) (hop_sims f ops a).
Proof. induction ops as [|o tl IH]; intros a; cbn [z_hop_sims hop_sims]; repeat q1. Qed.
Lemma tc_hop_revs f ops : forall a, touches (z_hop_revs f ops a) (hop_revs f ops a).
Proof. induction ops as [|o tl IH]; intros a; cbn [z_hop_revs hop_revs]; repeat q1. Qed.
#[export] Hint Resolve tc_hop_sims tc_hop_revs : touch.
Lemma tc_hop_simulate h ops a : touches (z_hop_simulate h ops a) (hop_simulate h ops a).
Proof. unfold z_hop_simulate, hop_simulate. repeat q1. Qed.
Lemma tc_hop_reverse h ops a : touches (z_hop_reverse h ops a) (hop_reverse h ops a).
Proof. unfold z_hop_reverse, hop_reverse. repeat q1. Qed.
Lemma tc_trader_query d ks : touches (z_trader_query d ks) (enter d KTrader ;; get_trader d).
Proof. unfold z_trader_query. repeat tc. Qed.
#[export] Hint Resolve tc_hop_simulate tc_hop_reverse tc_trader_query : touch.
