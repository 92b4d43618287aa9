(** Allowances across the whole system: no call but [approve] ever makes one larger. *)
From Coq Require Import ZArith List Bool Lia.
From Coq Require Import ZifyBool.
From Verif Require Import Base FMap Decimal DecimalProofs Curve World Token TokenProofs Frame Stake Pool PoolProofs
  Stable StableProofs Rewards Vest Factory Router System SysFrame SysInv Props_Token.
Import ListNotations.
Open Scope Z_scope.

(** What a spender may pull, never counted below zero. *)
Definition AllowLe (w w' : World) : Prop := w_seq w' = w_seq w /\
  forall t a s, live_allowance w' t a s <= Z.max 0 (live_allowance w t a s).

Lemma al_refl w : AllowLe w w.
Proof. split; auto. intros. lia. Qed.
Lemma al_trans w1 w2 w3 : AllowLe w1 w2 -> AllowLe w2 w3 -> AllowLe w1 w3.
Proof. intros [A1 A2] [B1 B2]. split; [congruence|]. intros t a s. specialize (A2 t a s). specialize (B2 t a s). lia. Qed.

Lemma al_bind {A B} (m : ST World A) (k : A -> ST World B) :
  safe AllowLe m -> (forall a, safe AllowLe (k a)) -> safe AllowLe (mbind m k).
Proof. apply safe_bind. apply al_trans. Qed.
Lemma al_pure {A} (m : ST World A) : pure m -> safe AllowLe m.
Proof. apply safe_pure. apply al_refl. Qed.
Lemma al_mmod (f : World -> World) : (forall w, w_tok (f w) = w_tok w /\ w_seq (f w) = w_seq w) -> safe AllowLe (mmod f).
Proof.
  intros E w u w' H. apply mmod_ok in H. inversion H; subst. destruct (E w) as [E1 E2]. split; auto.
  intros t a s. unfold live_allowance. rewrite E1, E2. lia.
Qed.

Lemma al_upd t k k' w w' : TokUpd t k k' w w' ->
  (forall f s, fst (tk_read_allowance (w_seq w) f s k') <= Z.max 0 (fst (tk_read_allowance (w_seq w) f s k))) -> AllowLe w w'.
Proof.
  intros U L. pose proof (live_upd _ _ _ _ _ 0 0 U) as [Q _]. split; auto. intros x a s.
  destruct (Z.eq_dec x t) as [->|N].
  - destruct (live_upd _ _ _ _ _ a s U) as [_ ->]. rewrite (live_read w t k) by apply U. apply L.
  - destruct U as [_ ->]. unfold live_allowance. simpl. rewrite fget_set_other by auto. lia.
Qed.
Lemma al_same k k' seq : t_allow k' = t_allow k ->
  forall f s, fst (tk_read_allowance seq f s k') <= Z.max 0 (fst (tk_read_allowance seq f s k)).
Proof. intros E f s. unfold tk_read_allowance, tk_allow_entry. rewrite E. lia. Qed.

Lemma al_transfer e c t f to x : safe AllowLe (tok_transfer e c t f to x).
Proof. intros w u w' H. apply tok_transfer_ok in H. destruct H as [_ [k [k' [U [_ E]]]]]. eapply al_upd; eauto. apply al_same; auto. Qed.
Lemma al_mint e c t to x : safe AllowLe (tok_mint e c t to x).
Proof. intros w u w' H. apply tok_mint_ok in H. destruct H as [k [_ [_ [U _]]]]. eapply al_upd; eauto. apply al_same; auto. Qed.
Lemma al_burn e c t f x : safe AllowLe (tok_burn e c t f x).
Proof. intros w u w' H. apply tok_burn_ok in H. destruct H as [_ [_ [k [U _]]]]. eapply al_upd; eauto. apply al_same; auto. Qed.
Lemma al_set_admin e c t a : safe AllowLe (tok_set_admin e c t a).
Proof. intros w u w' H. apply tok_set_admin_ok in H. destruct H as [k [_ U]]. eapply al_upd; eauto. apply al_same; auto. Qed.
Lemma al_op e c t o : (forall f s, op_approves f s o = false) -> safe AllowLe (tok_op e c t o).
Proof.
  intros N w u w' H. destruct u. apply tok_op_eff in H. destruct H as [k [k' [U O]]]. eapply al_upd; eauto. intros f s.
  destruct (oe_entry _ _ _ _ _ _ O f s (N f s)) as [[Q1 Q2]|[Q1 Q2]].
  - unfold tk_read_allowance. rewrite Q1. lia.
  - unfold tk_read_allowance at 1. rewrite Q1.
    destruct (Z.ltb_spec (snd (tk_read_allowance (w_seq w) f s k)) (w_seq w)); simpl; lia.
Qed.
Lemma al_deploy_tok t a d : safe AllowLe (tok_deploy t a d).
Proof.
  intros w u w' H. apply tok_deploy_ok in H. destruct H as [_ [_ [_ ->]]]. split; [reflexivity|]. intros x f s.
  unfold live_allowance; simpl. destruct (Z.eq_dec x t) as [->|N].
  - rewrite fget_set_same. simpl. lia.
  - rewrite fget_set_other by auto. lia.
Qed.
Lemma al_deploy a k : safe AllowLe (deploy a k).
Proof. intros w u w' H. apply deploy_ok in H. destruct H as [_ [_ ->]]. split; [reflexivity|]. intros. unfold live_allowance. simpl. lia. Qed.

Ltac al_tac :=
  repeat first
  [ solve [apply al_pure; auto with pure]
  | apply al_transfer | apply al_mint | apply al_burn | apply al_set_admin | apply al_deploy_tok | apply al_deploy
  | apply al_bind; [|intro]
  | solve [apply al_mmod; intro; split; reflexivity]
  | match goal with
    | |- safe _ (let '(_, _) := ?p in _) => destruct p
    | |- safe _ (if ?b then _ else _) => destruct b
    | |- safe _ (mwhen ?b _) => unfold mwhen; destruct b
    | |- safe _ (match ?o with _ => _ end) => destruct o
    end
  | progress unfold put_pool, put_stable, put_stake, put_rewards, put_vest, put_fact, put_hop, put_trader, put_wasm,
      deploy_share, deploy_stake_of, pool_initialize, stable_initialize, fact_create, fact_initialize,
      mint_shares, burn_shares, new_share_total, do_swap, stable_mint_shares, stable_burn_shares, stable_do_swap,
      pool_provide, pool_swap, pool_withdraw, pool_update_config, pool_update, pool_upgrade, stake_update, rewards_update,
      stable_provide, stable_swap, stable_withdraw, stable_update_config, stable_upgrade,
      stake_initialize, stake_bond, stake_unbond, stake_create_flow, stake_distribute, stake_withdraw_rewards,
      rewards_initialize, rewards_add_user, rewards_bond, rewards_unbond, rewards_distribute, rewards_withdraw,
      rewards_fund, vest_initialize, vest_create, vest_claim, vest_burn, vest_mint, vest_update_minter,
      vest_update_capacity, vest_update, fact_update_whitelist, fact_update_hashes, fact_update, hop_initialize,
      hop_update, trader_initialize, trader_transfer, drop
  | progress cbv beta zeta ].

Lemma al_pay e self u s t b l : safe AllowLe (pay_rewards e self u s t b l).
Proof. induction l; simpl; al_tac. auto. Qed.
Lemma al_any_swap e c p u o a mi ms dl mf : safe AllowLe (any_swap e c p u o a mi ms dl mf).
Proof. unfold any_swap. al_tac. Qed.
Lemma al_hop_swaps e self f r ops ms dl mf : forall a, safe AllowLe (hop_swaps e self f r ops a ms dl mf).
Proof.
  induction ops; intros amt; simpl; [al_tac|].
  apply al_bind; [al_tac|intro]. apply al_bind; [apply al_any_swap|intro]. auto.
Qed.

(** Every call except [approve]. *)
Lemma exec_allow e k : (forall t f s x ex, k <> CApprove t f s x ex) -> safe AllowLe (exec e k).
Proof.
  intros D. destruct k; simpl exec; try (al_tac; fail).
  - exfalso. eapply D. reflexivity.
  - apply (al_op e None t (OpTransferFrom sp from to amt)). reflexivity.
  - apply (al_op e None t (OpBurnFrom sp from amt)). reflexivity.
  - unfold stake_withdraw_rewards. al_tac. apply al_pay.
  - unfold drop, hop_swap. al_tac. apply al_hop_swaps.
Qed.
