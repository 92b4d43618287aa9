(** Keeping books from events alone: what an observer who only reads the events of a
    contract knows about its state. *)
From Coq Require Import ZArith List Bool String Lia.
From Coq Require Import ZifyBool.
From Verif Require Import Base FMap Decimal Curve World Token Stake Pool Stable Rewards Vest Factory Router System
  TokenProofs Frame Events EventsErase EventsLog EventsExact EventsExact2.
Import ListNotations.
Open Scope string_scope.
Open Scope list_scope.
Open Scope Z_scope.

(** ** Calls that leave a part of the ledger alone and publish only events of no interest *)
Definition same {X} (f : World -> X) (w w' : World) : Prop := f w' = f w.
Definition calm {X} (f : World -> X) (pl : Ev -> bool) (w w' : World) (d : Log) : Prop :=
  f w' = f w /\ Forall (fun x => pl (snd x) = true) d.

Lemma calm_rel {X} (f : World -> X) pl : LogRel (calm f pl).
Proof.
  constructor.
  - intros w. split; auto.
  - intros w1 w2 w3 d1 d2 [A1 A2] [B1 B2]. split; [congruence|]. apply Forall_app. auto.
Qed.
Lemma same_trans {X} (f : World -> X) a b c : same f a b -> same f b c -> same f a c.
Proof. unfold same. congruence. Qed.
Lemma same_pure {X A} (f : World -> X) (m : ST World A) : pure m -> safe (same f) m.
Proof. intros P w a w' H. rewrite (P _ _ _ H). reflexivity. Qed.
Lemma same_mmod {X} (f : World -> X) g : (forall w, f (g w) = f w) -> safe (same f) (mmod g).
Proof. intros E w a w' H. inversion H; subst. apply E. Qed.

Ltac sm :=
  repeat first
  [ solve [apply same_pure; auto with pure]
  | solve [apply same_mmod; reflexivity]
  | apply (safe_bind _ (same_trans _)); [|intro]
  | match goal with
    | |- safe _ (let '(_, _) := ?p in _) => destruct p
    | |- safe _ (if ?b then _ else _) => destruct b
    | |- safe _ (match ?o with _ => _ end) => destruct o
    end
  | progress cbv beta zeta
  | progress unfold deploy, tok_deploy, deploy_share, tok_transfer, tok_transfer_from, tok_burn, tok_burn_from, tok_approve, upd_tok, put_tok,
      stake_initialize, stake_create_flow, rewards_initialize, rewards_add_user, rewards_bond,
      vest_initialize, vest_update_minter, vest_update_capacity, hop_initialize, trader_initialize,
      fact_pool_by_pair, rewards_query, pool_update_config, pool_update, pool_upgrade, stable_update_config,
      stable_upgrade, stake_update, rewards_update, vest_update, fact_update_whitelist, fact_update_hashes,
      fact_update, hop_update, put_pool, put_stable, put_stake, put_rewards, put_vest, put_fact, put_hop,
      put_trader, put_wasm, drop ].

Lemma calm_lf {X A} (f : World -> X) pl (m : ST World A) : safe (same f) m -> logs (calm f pl) (lf m).
Proof. intros E. apply lg_lf. intros w a w' H. split; [eapply E; eauto | constructor]. Qed.
Lemma calm_emit {X} (f : World -> X) pl c v : pl v = true -> logs (calm f pl) (emit c v).
Proof. intros E. apply lg_emit. intros w. split; auto. Qed.

Ltac cm_leaf := first [ apply calm_emit; reflexivity | apply calm_lf; solve [sm] ].
Ltac unfold_calls :=
  unfold l_stake_initialize, l_stake_bond, l_stake_unbond, l_stake_create_flow, l_stake_distribute,
    l_stake_withdraw_rewards, l_pool_provide, l_new_share_total, l_mint_shares, l_burn_shares, pub_provide,
    l_pool_withdraw, pub_withdraw, l_stable_provide, l_stable_mint_shares, l_stable_burn_shares, l_stable_withdraw,
    l_rewards_initialize, l_rewards_add_user, l_rewards_bond, l_rewards_unbond, l_rewards_distribute, l_rewards_fund,
    l_vest_initialize, l_vest_create, l_vest_claim, l_vest_burn, l_vest_mint, l_vest_update_minter,
    l_vest_update_capacity, l_hop_initialize, l_fact_initialize, l_fact_create, l_hop_swap, l_trader_initialize,
    l_trader_trade, l_trader_transfer, l_drop, l_mint, l_set_admin, l_approve, l_transfer, l_transfer_from, l_burn, l_burn_from.

(** an event is plain for an observer interested in the listed topics (and keys, "" for any) *)
Definition plain (ts : list (string * string)) (v : Ev) : bool :=
  match v with
  | Pub t k _ => negb (existsb (fun x => String.eqb t (fst x) && (String.eqb (snd x) "" || String.eqb k (snd x))) ts)
  | _ => true
  end.

(** *** w_stake *)
Definition t_stake : list (string * string) := [("bond", ""); ("unbond", "")].
Definition touches_stake (k : Call) : bool :=
  match k with
  | CStakeInit _ _ _ _ _ _ _ _ | CBond _ _ _ | CUnbond _ _ _ _ | CFlow _ _ _ | CDistribute _ _ _ _ | CWithdrawRewards _ _ | CPoolInit _ _ _ _ _ _ | CStableInit _ _ _ _ _ | CCreate _ _ _ _ _ _ _ => true
  | _ => false
  end.
Lemma cstake_pool_swap e c a b d x x1 x2 x3 x4 : logs (calm w_stake (plain t_stake)) (l_pool_swap e c a b d x x1 x2 x3 x4).
Proof. unfold l_pool_swap, l_do_swap, l_transfer. lg (calm_rel w_stake (plain t_stake)) cm_leaf. Qed.
Lemma cstake_stable_swap e c a b d x x1 x2 x3 x4 : logs (calm w_stake (plain t_stake)) (l_stable_swap e c a b d x x1 x2 x3 x4).
Proof. unfold l_stable_swap, l_stable_do_swap, l_transfer. lg (calm_rel w_stake (plain t_stake)) cm_leaf. Qed.
Lemma cstake_any_swap e c a b d x x1 x2 x3 x4 : logs (calm w_stake (plain t_stake)) (l_any_swap e c a b d x x1 x2 x3 x4).
Proof. unfold l_any_swap. lg (calm_rel w_stake (plain t_stake)) cm_leaf; first [apply cstake_pool_swap | apply cstake_stable_swap]. Qed.
Lemma cstake_hop_swaps e a b c x2 x3 x4 l : forall x, logs (calm w_stake (plain t_stake)) (l_hop_swaps e a b c l x x2 x3 x4).
Proof. induction l as [|o l IH]; intros x; simpl; lg (calm_rel w_stake (plain t_stake)) cm_leaf; first [apply cstake_any_swap | apply IH]. Qed.
Lemma cstake_rewards_withdraw e c a b d : logs (calm w_stake (plain t_stake)) (l_rewards_withdraw e c a b d).
Proof. unfold l_rewards_withdraw, l_transfer. lg (calm_rel w_stake (plain t_stake)) cm_leaf. Qed.
Theorem calm_stake e k : touches_stake k = false -> logs (calm w_stake (plain t_stake)) (lexec e k).
Proof.
  destruct k; intros T; try discriminate T; clear T; simpl;
  unfold_calls; lg (calm_rel w_stake (plain t_stake)) cm_leaf;
  first [ apply cstake_pool_swap | apply cstake_stable_swap | apply cstake_hop_swaps | apply cstake_any_swap | apply cstake_rewards_withdraw ].
Qed.

(** *** w_fact *)
Definition t_fact : list (string * string) := [("create", "")].
Definition touches_fact (k : Call) : bool :=
  match k with
  | CFactInit _ _ _ _ _ _ _ _ | CCreate _ _ _ _ _ _ _ | CWhitelist _ _ _ _ | CHashes _ _ _ _ | CFactUpdate _ _ _ => true
  | _ => false
  end.
Lemma cfact_pool_swap e c a b d x x1 x2 x3 x4 : logs (calm w_fact (plain t_fact)) (l_pool_swap e c a b d x x1 x2 x3 x4).
Proof. unfold l_pool_swap, l_do_swap, l_transfer. lg (calm_rel w_fact (plain t_fact)) cm_leaf. Qed.
Lemma cfact_stable_swap e c a b d x x1 x2 x3 x4 : logs (calm w_fact (plain t_fact)) (l_stable_swap e c a b d x x1 x2 x3 x4).
Proof. unfold l_stable_swap, l_stable_do_swap, l_transfer. lg (calm_rel w_fact (plain t_fact)) cm_leaf. Qed.
Lemma cfact_any_swap e c a b d x x1 x2 x3 x4 : logs (calm w_fact (plain t_fact)) (l_any_swap e c a b d x x1 x2 x3 x4).
Proof. unfold l_any_swap. lg (calm_rel w_fact (plain t_fact)) cm_leaf; first [apply cfact_pool_swap | apply cfact_stable_swap]. Qed.
Lemma cfact_hop_swaps e a b c x2 x3 x4 l : forall x, logs (calm w_fact (plain t_fact)) (l_hop_swaps e a b c l x x2 x3 x4).
Proof. induction l as [|o l IH]; intros x; simpl; lg (calm_rel w_fact (plain t_fact)) cm_leaf; first [apply cfact_any_swap | apply IH]. Qed.
Lemma cfact_pool_initialize e a i b c d x : logs (calm w_fact (plain t_fact)) (l_pool_initialize e a i b c d x).
Proof. unfold l_pool_initialize, l_deploy_stake_of, l_stake_initialize. lg (calm_rel w_fact (plain t_fact)) cm_leaf. Qed.
Lemma cfact_stable_initialize e a i b c d : logs (calm w_fact (plain t_fact)) (l_stable_initialize e a i b c d).
Proof. unfold l_stable_initialize, l_deploy_stake_of, l_stake_initialize. lg (calm_rel w_fact (plain t_fact)) cm_leaf. Qed.
Lemma cfact_pay e a b s t x l : logs (calm w_fact (plain t_fact)) (l_pay_rewards e a b s t x l).
Proof. induction l as [|y l IH]; simpl; unfold l_transfer; lg (calm_rel w_fact (plain t_fact)) cm_leaf. exact IH. Qed.
Lemma cfact_rewards_withdraw e c a b d : logs (calm w_fact (plain t_fact)) (l_rewards_withdraw e c a b d).
Proof. unfold l_rewards_withdraw, l_transfer. lg (calm_rel w_fact (plain t_fact)) cm_leaf. Qed.
Theorem calm_fact e k : touches_fact k = false -> logs (calm w_fact (plain t_fact)) (lexec e k).
Proof.
  destruct k; intros T; try discriminate T; clear T; simpl;
  unfold_calls; lg (calm_rel w_fact (plain t_fact)) cm_leaf;
  first [ apply cfact_pool_swap | apply cfact_stable_swap | apply cfact_hop_swaps | apply cfact_any_swap | apply cfact_pool_initialize | apply cfact_stable_initialize | apply cfact_pay | apply cfact_rewards_withdraw ].
Qed.

(** *** w_rewards *)
Definition t_rewards : list (string * string) := [("distribute_rewards", "amount"); ("withdraw_rewards", "reward_amount")].
Definition touches_rewards (k : Call) : bool :=
  match k with
  | CRewInit _ _ _ _ _ _ _ | CRewAddUser _ _ _ | CRewBond _ _ _ | CRewUnbond _ _ _ _ | CRewDistribute _ _ | CRewWithdraw _ _ _ | CRewFund _ _ _ _ => true
  | _ => false
  end.
Lemma crewards_pool_swap e c a b d x x1 x2 x3 x4 : logs (calm w_rewards (plain t_rewards)) (l_pool_swap e c a b d x x1 x2 x3 x4).
Proof. unfold l_pool_swap, l_do_swap, l_transfer. lg (calm_rel w_rewards (plain t_rewards)) cm_leaf. Qed.
Lemma crewards_stable_swap e c a b d x x1 x2 x3 x4 : logs (calm w_rewards (plain t_rewards)) (l_stable_swap e c a b d x x1 x2 x3 x4).
Proof. unfold l_stable_swap, l_stable_do_swap, l_transfer. lg (calm_rel w_rewards (plain t_rewards)) cm_leaf. Qed.
Lemma crewards_any_swap e c a b d x x1 x2 x3 x4 : logs (calm w_rewards (plain t_rewards)) (l_any_swap e c a b d x x1 x2 x3 x4).
Proof. unfold l_any_swap. lg (calm_rel w_rewards (plain t_rewards)) cm_leaf; first [apply crewards_pool_swap | apply crewards_stable_swap]. Qed.
Lemma crewards_hop_swaps e a b c x2 x3 x4 l : forall x, logs (calm w_rewards (plain t_rewards)) (l_hop_swaps e a b c l x x2 x3 x4).
Proof. induction l as [|o l IH]; intros x; simpl; lg (calm_rel w_rewards (plain t_rewards)) cm_leaf; first [apply crewards_any_swap | apply IH]. Qed.
Lemma crewards_pool_initialize e a i b c d x : logs (calm w_rewards (plain t_rewards)) (l_pool_initialize e a i b c d x).
Proof. unfold l_pool_initialize, l_deploy_stake_of, l_stake_initialize. lg (calm_rel w_rewards (plain t_rewards)) cm_leaf. Qed.
Lemma crewards_stable_initialize e a i b c d : logs (calm w_rewards (plain t_rewards)) (l_stable_initialize e a i b c d).
Proof. unfold l_stable_initialize, l_deploy_stake_of, l_stake_initialize. lg (calm_rel w_rewards (plain t_rewards)) cm_leaf. Qed.
Lemma crewards_pay e a b s t x l : logs (calm w_rewards (plain t_rewards)) (l_pay_rewards e a b s t x l).
Proof. induction l as [|y l IH]; simpl; unfold l_transfer; lg (calm_rel w_rewards (plain t_rewards)) cm_leaf. exact IH. Qed.
Theorem calm_rewards e k : touches_rewards k = false -> logs (calm w_rewards (plain t_rewards)) (lexec e k).
Proof.
  destruct k; intros T; try discriminate T; clear T; simpl;
  unfold_calls; lg (calm_rel w_rewards (plain t_rewards)) cm_leaf;
  first [ apply crewards_pool_swap | apply crewards_stable_swap | apply crewards_hop_swaps | apply crewards_any_swap | apply crewards_pool_initialize | apply crewards_stable_initialize | apply crewards_pay ].
Qed.

(** *** w_vest *)
Definition t_vest : list (string * string) := [("Update minter", ""); ("Update minter capacity", ""); ("Mint", "")].
Definition touches_vest (k : Call) : bool :=
  match k with
  | CVestInit _ _ _ _ _ | CVestCreate _ _ | CVestClaim _ _ _ | CVestMint _ _ _ | CVestMinter _ _ _ | CVestCapacity _ _ _ => true
  | _ => false
  end.
Lemma cvest_pool_swap e c a b d x x1 x2 x3 x4 : logs (calm w_vest (plain t_vest)) (l_pool_swap e c a b d x x1 x2 x3 x4).
Proof. unfold l_pool_swap, l_do_swap, l_transfer. lg (calm_rel w_vest (plain t_vest)) cm_leaf. Qed.
Lemma cvest_stable_swap e c a b d x x1 x2 x3 x4 : logs (calm w_vest (plain t_vest)) (l_stable_swap e c a b d x x1 x2 x3 x4).
Proof. unfold l_stable_swap, l_stable_do_swap, l_transfer. lg (calm_rel w_vest (plain t_vest)) cm_leaf. Qed.
Lemma cvest_any_swap e c a b d x x1 x2 x3 x4 : logs (calm w_vest (plain t_vest)) (l_any_swap e c a b d x x1 x2 x3 x4).
Proof. unfold l_any_swap. lg (calm_rel w_vest (plain t_vest)) cm_leaf; first [apply cvest_pool_swap | apply cvest_stable_swap]. Qed.
Lemma cvest_hop_swaps e a b c x2 x3 x4 l : forall x, logs (calm w_vest (plain t_vest)) (l_hop_swaps e a b c l x x2 x3 x4).
Proof. induction l as [|o l IH]; intros x; simpl; lg (calm_rel w_vest (plain t_vest)) cm_leaf; first [apply cvest_any_swap | apply IH]. Qed.
Lemma cvest_pool_initialize e a i b c d x : logs (calm w_vest (plain t_vest)) (l_pool_initialize e a i b c d x).
Proof. unfold l_pool_initialize, l_deploy_stake_of, l_stake_initialize. lg (calm_rel w_vest (plain t_vest)) cm_leaf. Qed.
Lemma cvest_stable_initialize e a i b c d : logs (calm w_vest (plain t_vest)) (l_stable_initialize e a i b c d).
Proof. unfold l_stable_initialize, l_deploy_stake_of, l_stake_initialize. lg (calm_rel w_vest (plain t_vest)) cm_leaf. Qed.
Lemma cvest_pay e a b s t x l : logs (calm w_vest (plain t_vest)) (l_pay_rewards e a b s t x l).
Proof. induction l as [|y l IH]; simpl; unfold l_transfer; lg (calm_rel w_vest (plain t_vest)) cm_leaf. exact IH. Qed.
Lemma cvest_rewards_withdraw e c a b d : logs (calm w_vest (plain t_vest)) (l_rewards_withdraw e c a b d).
Proof. unfold l_rewards_withdraw, l_transfer. lg (calm_rel w_vest (plain t_vest)) cm_leaf. Qed.
Theorem calm_vest e k : touches_vest k = false -> logs (calm w_vest (plain t_vest)) (lexec e k).
Proof.
  destruct k; intros T; try discriminate T; clear T; simpl;
  unfold_calls; lg (calm_rel w_vest (plain t_vest)) cm_leaf;
  first [ apply cvest_pool_swap | apply cvest_stable_swap | apply cvest_hop_swaps | apply cvest_any_swap | apply cvest_pool_initialize | apply cvest_stable_initialize | apply cvest_pay | apply cvest_rewards_withdraw ].
Qed.
