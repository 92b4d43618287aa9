(** The events of the staking, rewards, vesting and factory calls. *)
From Coq Require Import ZArith List Bool String Lia.
From Coq Require Import ZifyBool.
From Verif Require Import Base FMap Decimal Curve World Token Stake Pool Stable Rewards Vest Factory Router System
  TokenProofs PoolProofs StableProofs Frame Events EventsErase EventsLog EventsExact.
Import ListNotations.
Open Scope string_scope.
Open Scope list_scope.
Open Scope Z_scope.

(** ** Staking *)
Definition bond_log (topic : string) (self u lp amt : Z) : Log :=
  [(self, Pub topic "user" (VZ u)); (self, Pub topic "token" (VZ lp)); (self, Pub topic "amount" (VZ amt))].
Lemma lx_bond e c self u amt w l s : l_stake_bond e c self u amt (w, l) = Ok (tt, s) ->
  exists k, fget self (w_stake w) = Some k /\
    snd s = l ++ (s_lp k, TTransfer u self amt) :: bond_log "bond" self u (s_lp k) amt.
Proof.
  unfold l_stake_bond. intros H. linv H. eexists. split; [eassumption|]. simpl snd. rewrite <- !app_assoc. reflexivity.
Qed.
Lemma lx_unbond e c self u amt ts w l s : l_stake_unbond e c self u amt ts (w, l) = Ok (tt, s) ->
  exists k, fget self (w_stake w) = Some k /\
    snd s = l ++ (s_lp k, TTransfer self u amt) :: bond_log "unbond" self u (s_lp k) amt.
Proof.
  unfold l_stake_unbond. intros H. linv H. eexists. split; [eassumption|]. simpl snd. rewrite <- !app_assoc. reflexivity.
Qed.
Lemma lx_distribute e c self u amt a w l s : l_stake_distribute e c self u amt a (w, l) = Ok (tt, s) ->
  snd s = l ++ [(a, TTransfer u self amt); (self, Pub "distribute_rewards" "asset" (VZ a))].
Proof.
  unfold l_stake_distribute. intros H. linv H. simpl snd. rewrite <- !app_assoc. reflexivity.
Qed.

(** one pair of events for each reward asset, whatever it pays *)
Fixpoint paid_log (self u : Addr) (k : Stake) (t : Z) (assets : list Addr) : Log :=
  match assets with
  | [] => []
  | a :: tl => (self, Pub "withdraw_rewards" "reward_token" (VZ a)) ::
      (a, TTransfer self u (match pending_rewards k t a (s_user k u) with Ok x => x | Err _ => 0 end)) :: paid_log self u k t tl
  end.
Lemma lx_pay e self u k t assets : forall w l s, l_pay_rewards e self u k t (s_user k u) assets (w, l) = Ok (tt, s) ->
  snd s = l ++ paid_log self u k t assets.
Proof.
  induction assets as [|a tl IH]; intros w l s H; simpl in H.
  - inversion H; subst. simpl. now rewrite app_nil_r.
  - linv H. apply IH in H. rewrite H. simpl. rewrite <- !app_assoc. simpl.
    match goal with K : pending_rewards _ _ _ _ = Ok _ |- _ => rewrite K end. reflexivity.
Qed.
Lemma lx_withdraw_rewards e self u w l s : l_stake_withdraw_rewards e self u (w, l) = Ok (tt, s) ->
  exists k, fget self (w_stake w) = Some k /\
    snd s = l ++ (self, Pub "withdraw_rewards" "user" (VZ u)) :: paid_log self u k (w_now w) (s_dists k).
Proof.
  unfold l_stake_withdraw_rewards. intros H. linv H. eexists. split; [eassumption|].
  match goal with K : l_pay_rewards _ _ _ _ _ _ _ _ = Ok (?x, _) |- _ => destruct x; apply lx_pay in K; simpl snd in *; rewrite K end.
  rewrite <- !app_assoc. reflexivity.
Qed.

(** ** Stake rewards *)
Lemma lx_rewards_withdraw e c self u b w l s : l_rewards_withdraw e c self u b (w, l) = Ok (tt, s) ->
  exists r amt, fget self (w_rewards w) = Some r /\ reward_now r (w_now w) u b = Ok amt /\
    snd s = l ++ (self, Pub "withdraw_rewards" "user" (VZ u)) ::
      (if amt =? 0 then [] else [(r_token r, TTransfer self u amt);
         (self, Pub "withdraw_rewards" "reward_token" (VZ (r_token r))); (self, Pub "withdraw_rewards" "reward_amount" (VZ amt))]).
Proof.
  unfold l_rewards_withdraw. intros H. linv H.
  match goal with K : reward_now _ _ _ _ = Ok ?x |- _ => rename x into amt end.
  do 2 eexists. split; [eassumption|]. split; [eassumption|].
  destruct (amt =? 0); linv H; simpl snd; rewrite <- ?app_assoc; reflexivity.
Qed.
