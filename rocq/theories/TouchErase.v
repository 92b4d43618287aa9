(** Recording accesses changes nothing: [zexec] succeeds exactly when [exec] does, with the same
    final ledger, and fails with the same error otherwise. *)
From Coq Require Import ZArith List Bool Lia.
From Verif Require Import Base FMap Decimal Curve World Token Stake Pool Stable Rewards Vest Factory Router System Touch.
Import ListNotations.
Open Scope Z_scope.

Definition touches {A} (m : TST A) (m0 : ST World A) : Prop := forall w l,
  match m0 w with
  | Ok (a, w') => exists D, m (w, l) = Ok (a, (w', l ++ D))
  | Err x => m (w, l) = Err x
  end.

Lemma tc_tf {A} (m : ST World A) : touches (tf m) m.
Proof. intros w l. unfold tf. simpl. destruct (m w) as [[a w']|x]; auto. exists []. now rewrite app_nil_r. Qed.
Lemma tc_bind {A B} (m : TST A) m0 (k : A -> TST B) k0 :
  touches m m0 -> (forall a, touches (k a) (k0 a)) -> touches (mbind m k) (mbind m0 k0).
Proof.
  intros E F w l. unfold mbind. specialize (E w l). destruct (m0 w) as [[a w1]|x].
  - destruct E as (D1 & E). rewrite E; cbv beta iota. specialize (F a w1 (l ++ D1)).
    destruct (k0 a w1) as [[b w2]|x]; auto.
    destruct F as (D2 & F). exists (D1 ++ D2). now rewrite app_assoc.
  - now rewrite E.
Qed.
Lemma tc_note {A} D (k : TST A) k0 : touches k k0 -> touches (mbind (tnote D) (fun _ => k)) k0.
Proof.
  intros F w l. unfold mbind, tnote. cbn [fst snd]. specialize (F w (l ++ D)).
  destruct (k0 w) as [[a w']|x]; auto. destruct F as (D2 & F). exists (D ++ D2). now rewrite app_assoc.
Qed.
Lemma tc_tail D m m0 : touches m m0 -> touches (mbind m (fun _ => tnote D)) m0.
Proof.
  intros E w l. unfold mbind. specialize (E w l). destruct (m0 w) as [[[] w1]|x].
  - destruct E as (D1 & E). rewrite E. exists (D1 ++ D). unfold tnote. cbn [fst snd]. now rewrite app_assoc.
  - now rewrite E.
Qed.
(** reading, then noting, then returning what was read *)
Lemma tc_ret {A} D (m : TST A) m0 : touches m m0 -> touches (mbind m (fun x => mbind (tnote D) (fun _ => mret x))) m0.
Proof.
  intros E w l. unfold mbind. specialize (E w l). destruct (m0 w) as [[a w1]|x].
  - destruct E as (D1 & E). rewrite E. exists (D1 ++ D). unfold tnote, mret. cbn [fst snd]. now rewrite app_assoc.
  - now rewrite E.
Qed.
Lemma tc_ret2 {A} D D' (m : TST A) m0 : touches m m0 ->
  touches (mbind m (fun x => mbind (tnote D) (fun _ => mbind (tnote D') (fun _ => mret x)))) m0.
Proof.
  intros E w l. unfold mbind. specialize (E w l). destruct (m0 w) as [[a w1]|x].
  - destruct E as (D1 & E). rewrite E. exists (D1 ++ D ++ D'). unfold tnote, mret. cbn [fst snd]. now rewrite !app_assoc.
  - now rewrite E.
Qed.
Lemma tc_tail2 D D' m m0 : touches m m0 -> touches (mbind m (fun _ => mbind (tnote D) (fun _ => tnote D'))) m0.
Proof.
  intros E w l. unfold mbind. specialize (E w l). destruct (m0 w) as [[[] w1]|x].
  - destruct E as (D1 & E). rewrite E. exists (D1 ++ D ++ D'). unfold tnote. cbn [fst snd]. now rewrite !app_assoc.
  - now rewrite E.
Qed.
Lemma tc_mret {A} (a : A) : touches (mret a) (mret a).
Proof. intros w l. exists []. unfold mret. now rewrite app_nil_r. Qed.
Lemma tc_skip {A B} (a : B) (k : B -> TST A) k0 : touches (k a) k0 -> touches (mbind (mret a) k) k0.
Proof. intros H w l. exact (H w l). Qed.
Lemma tc_mfail {A} x : @touches A (mfail x) (mfail x).
Proof. intros w l. reflexivity. Qed.
Lemma tc_mlift {A} (r : res A) : touches (mlift r) (mlift r).
Proof. intros w l. unfold mlift. destruct r; auto. exists []. now rewrite app_nil_r. Qed.
Lemma tc_mguard b x : touches (mguard b x) (mguard b x).
Proof. intros w l. unfold mguard. destruct b; auto. exists []. now rewrite app_nil_r. Qed.

Create HintDb touch.
#[export] Hint Resolve tc_tf tc_mret tc_mfail tc_mlift tc_mguard : touch.

Lemma tc_deploy a k : touches (z_deploy a k) (deploy a k).
Proof. apply tc_tail, tc_tf. Qed.
Lemma tc_get_pool a ks : touches (z_get_pool a ks) (get_pool a). Proof. apply tc_ret, tc_tf. Qed.
Lemma tc_get_stake a ks : touches (z_get_stake a ks) (get_stake a). Proof. apply tc_ret, tc_tf. Qed.
Lemma tc_get_rewards a ks ls : touches (z_get_rewards a ks ls) (get_rewards a). Proof. apply tc_ret2, tc_tf. Qed.
Lemma tc_get_vest a ks : touches (z_get_vest a ks) (get_vest a). Proof. apply tc_ret, tc_tf. Qed.
Lemma tc_get_fact a ks : touches (z_get_fact a ks) (get_fact a). Proof. apply tc_ret, tc_tf. Qed.
Lemma tc_get_trader a ks : touches (z_get_trader a ks) (get_trader a). Proof. apply tc_ret, tc_tf. Qed.
Lemma tc_put_pool a x ks : touches (z_put_pool a x ks) (put_pool a x). Proof. apply tc_tail, tc_tf. Qed.
Lemma tc_put_stable a x ks : touches (z_put_stable a x ks) (put_stable a x). Proof. apply tc_tail, tc_tf. Qed.
Lemma tc_put_stake a x ks : touches (z_put_stake a x ks) (put_stake a x). Proof. apply tc_tail, tc_tf. Qed.
Lemma tc_put_rewards a x ks ps : touches (z_put_rewards a x ks ps) (put_rewards a x). Proof. apply tc_tail2, tc_tf. Qed.
Lemma tc_put_vest a x ks : touches (z_put_vest a x ks) (put_vest a x). Proof. apply tc_tail, tc_tf. Qed.
Lemma tc_put_fact a x ks : touches (z_put_fact a x ks) (put_fact a x). Proof. apply tc_tail, tc_tf. Qed.
Lemma tc_put_hop a x ks : touches (z_put_hop a x ks) (put_hop a x). Proof. apply tc_tail, tc_tf. Qed.
Lemma tc_put_trader a x ks : touches (z_put_trader a x ks) (put_trader a x). Proof. apply tc_tail, tc_tf. Qed.
Lemma tc_upd_tok t f us : touches (z_upd_tok t f us) (upd_tok t f). Proof. apply tc_tail2, tc_tf. Qed.
Lemma tc_upd_rewards self r u p0 p1 :
  touches (z_update_rewards self r u p0 p1) (r' <- mlift (update_rewards r u p0 p1) ;; put_rewards self r').
Proof. unfold z_update_rewards. apply tc_bind; [apply tc_mlift|]. intros a. apply tc_note, tc_put_rewards. Qed.
#[export] Hint Resolve tc_deploy tc_get_pool tc_get_stake tc_get_rewards tc_get_vest tc_get_fact tc_get_trader
  tc_put_pool tc_put_stable tc_put_stake tc_put_rewards tc_put_vest tc_put_fact tc_put_hop tc_put_trader tc_upd_tok tc_upd_rewards : touch.

Ltac tc :=
  match goal with
  | |- touches (tf ?m) ?m => apply tc_tf
  | |- touches (if ?b then _ else _) (if ?b then _ else _) => destruct b
  | |- touches (match ?x with _ => _ end) (match ?x with _ => _ end) => destruct x
  | |- touches (mbind (tnote _) _) _ => apply tc_note
  | |- touches (mbind (come _) _) _ => apply tc_note
  | |- touches (mbind (seen _) _) _ => apply tc_note
  | |- touches (mbind (instP _) _) _ => apply tc_note
  | |- touches (mbind (got _ _) _) _ => apply tc_note
  | |- touches (mbind (looks _ _) _) _ => apply tc_note
  | |- touches (mbind (peek _ _) _) _ => apply tc_note
  | |- touches (mbind ?m _) (mbind ?m0 _) => apply tc_bind; [solve [auto with touch] | intros ?]
  | |- touches _ _ => solve [auto with touch]
  end.

Lemma tc_tok_deploy t admin dec : touches (z_tok_deploy t admin dec) (tok_deploy t admin dec).
Proof. unfold z_tok_deploy, tok_deploy. repeat tc. Qed.
#[export] Hint Resolve tc_tok_deploy : touch.

Lemma tc_mint (e : Env) (c : option Addr) (t to amt : Z) :
  touches (z_mint e c t to amt) (tok_mint e c t to amt).
Proof. unfold z_mint, tok_mint. repeat tc. Qed.
#[export] Hint Resolve tc_mint : touch.

Lemma tc_set_admin (e : Env) (c : option Addr) (t new : Z) :
  touches (z_set_admin e c t new) (tok_set_admin e c t new).
Proof. unfold z_set_admin, tok_set_admin. repeat tc. Qed.
#[export] Hint Resolve tc_set_admin : touch.

Lemma tc_approve (e : Env) (c : option Addr) (t from sp amt ex : Z) :
  touches (z_approve e c t from sp amt ex) (tok_approve e c t from sp amt ex).
Proof. unfold z_approve, tok_approve. repeat tc. Qed.
#[export] Hint Resolve tc_approve : touch.

Lemma tc_transfer (e : Env) (c : option Addr) (t from to amt : Z) :
  touches (z_transfer e c t from to amt) (tok_transfer e c t from to amt).
Proof. unfold z_transfer, tok_transfer. repeat tc. Qed.
#[export] Hint Resolve tc_transfer : touch.

Lemma tc_transfer_from (e : Env) (c : option Addr) (t sp from to amt : Z) :
  touches (z_transfer_from e c t sp from to amt) (tok_transfer_from e c t sp from to amt).
Proof. unfold z_transfer_from, tok_transfer_from. repeat tc. Qed.
#[export] Hint Resolve tc_transfer_from : touch.

Lemma tc_burn (e : Env) (c : option Addr) (t from amt : Z) :
  touches (z_burn e c t from amt) (tok_burn e c t from amt).
Proof. unfold z_burn, tok_burn. repeat tc. Qed.
#[export] Hint Resolve tc_burn : touch.

Lemma tc_burn_from (e : Env) (c : option Addr) (t sp from amt : Z) :
  touches (z_burn_from e c t sp from amt) (tok_burn_from e c t sp from amt).
Proof. unfold z_burn_from, tok_burn_from. repeat tc. Qed.
#[export] Hint Resolve tc_burn_from : touch.

Lemma tc_balance (t a : Z) :
  touches (z_balance t a) (tok_balance t a).
Proof. apply tc_ret2, tc_tf. Qed.
#[export] Hint Resolve tc_balance : touch.

Lemma tc_decimals (t : Z) :
  touches (z_decimals t) (tok_decimals t).
Proof. apply tc_ret, tc_tf. Qed.
#[export] Hint Resolve tc_decimals : touch.

Lemma tc_stake_initialize (self admin lp minbond minreward manager owner maxc : Z) :
  touches (z_stake_initialize self admin lp minbond minreward manager owner maxc) (stake_initialize self admin lp minbond minreward manager owner maxc).
Proof. unfold z_stake_initialize, stake_initialize. repeat tc. Qed.
#[export] Hint Resolve tc_stake_initialize : touch.

Lemma tc_stake_bond (e : Env) (c : option Addr) (self sender tokens : Z) :
  touches (z_stake_bond e c self sender tokens) (stake_bond e c self sender tokens).
Proof. unfold z_stake_bond, stake_bond. repeat tc. Qed.
#[export] Hint Resolve tc_stake_bond : touch.

Lemma tc_stake_unbond (e : Env) (c : option Addr) (self sender amt ts : Z) :
  touches (z_stake_unbond e c self sender amt ts) (stake_unbond e c self sender amt ts).
Proof. unfold z_stake_unbond, stake_unbond. repeat tc. Qed.
#[export] Hint Resolve tc_stake_unbond : touch.

Lemma tc_stake_create_flow (e : Env) (c : option Addr) (self sender asset : Z) :
  touches (z_stake_create_flow e c self sender asset) (stake_create_flow e c self sender asset).
Proof. unfold z_stake_create_flow, stake_create_flow. repeat tc. Qed.
#[export] Hint Resolve tc_stake_create_flow : touch.

Lemma tc_stake_distribute (e : Env) (c : option Addr) (self sender amt token : Z) :
  touches (z_stake_distribute e c self sender amt token) (stake_distribute e c self sender amt token).
Proof. unfold z_stake_distribute, stake_distribute. repeat tc. Qed.
#[export] Hint Resolve tc_stake_distribute : touch.

Lemma tc_pay_rewards (e : Env) (self sender : Addr) (s : Stake) (t : Z) (b : Bonding) (assets : list Addr) :
  touches (z_pay_rewards e self sender s t b assets) (pay_rewards e self sender s t b assets).
Proof. induction assets as [|y l IH]; simpl; repeat tc. Qed.
#[export] Hint Resolve tc_pay_rewards : touch.

Lemma tc_stake_withdraw_rewards (e : Env) (self sender : Addr) :
  touches (z_stake_withdraw_rewards e self sender) (stake_withdraw_rewards e self sender).
Proof. unfold z_stake_withdraw_rewards, stake_withdraw_rewards. repeat tc. Qed.
#[export] Hint Resolve tc_stake_withdraw_rewards : touch.

Lemma tc_deploy_share (e : Env) (self ta tb dec : Z) :
  touches (z_deploy_share e self ta tb dec) (deploy_share e self ta tb dec).
Proof. unfold z_deploy_share, deploy_share. repeat tc. Qed.
#[export] Hint Resolve tc_deploy_share : touch.

Lemma tc_deploy_stake_of (e : Env) (self admin share minbond minreward manager owner maxc : Z) :
  touches (z_deploy_stake_of e self admin share minbond minreward manager owner maxc) (deploy_stake_of e self admin share minbond minreward manager owner maxc).
Proof. unfold z_deploy_stake_of, deploy_stake_of. repeat tc. Qed.
#[export] Hint Resolve tc_deploy_stake_of : touch.

Lemma tc_pool_initialize (e : Env) (self : Addr) (i : PoolInit) (factory dec defslip maxfee : Z) :
  touches (z_pool_initialize e self i factory dec defslip maxfee) (pool_initialize e self i factory dec defslip maxfee).
Proof. unfold z_pool_initialize, pool_initialize. repeat tc. Qed.
#[export] Hint Resolve tc_pool_initialize : touch.

Lemma tc_mint_shares (e : Env) (self to amt : Z) :
  touches (z_mint_shares e self to amt) (mint_shares e self to amt).
Proof. unfold z_mint_shares, mint_shares. repeat tc. Qed.
#[export] Hint Resolve tc_mint_shares : touch.

Lemma tc_burn_shares (e : Env) (self amt : Z) :
  touches (z_burn_shares e self amt) (burn_shares e self amt).
Proof. unfold z_burn_shares, burn_shares. repeat tc. Qed.
#[export] Hint Resolve tc_burn_shares : touch.

Lemma tc_new_share_total (e : Env) (self a b bala balb : Z) (p : Pool) :
  touches (z_new_share_total e self a b bala balb p) (new_share_total e self a b bala balb p).
Proof. unfold z_new_share_total, new_share_total. repeat tc. Qed.
#[export] Hint Resolve tc_new_share_total : touch.

Lemma tc_pool_provide (e : Env) (c : option Addr) (self sender : Addr) (da mina db minb custom dl : option Z) :
  touches (z_pool_provide e c self sender da mina db minb custom dl) (pool_provide e c self sender da mina db minb custom dl).
Proof. unfold z_pool_provide, pool_provide. repeat tc. Qed.
#[export] Hint Resolve tc_pool_provide : touch.

Lemma tc_do_swap (e : Env) (self sender offer amt : Z) (ask_min max_spread max_fee : option Z) :
  touches (z_do_swap e self sender offer amt ask_min max_spread max_fee) (do_swap e self sender offer amt ask_min max_spread max_fee).
Proof. unfold z_do_swap, do_swap. repeat tc. Qed.
#[export] Hint Resolve tc_do_swap : touch.

Lemma tc_pool_swap (e : Env) (c : option Addr) (self sender offer amt : Z) (ask_min max_spread dl max_fee : option Z) :
  touches (z_pool_swap e c self sender offer amt ask_min max_spread dl max_fee) (pool_swap e c self sender offer amt ask_min max_spread dl max_fee).
Proof. unfold z_pool_swap, pool_swap. repeat tc. Qed.
#[export] Hint Resolve tc_pool_swap : touch.

Lemma tc_pool_withdraw (e : Env) (c : option Addr) (self sender share mina minb : Z) (dl : option Z) :
  touches (z_pool_withdraw e c self sender share mina minb dl) (pool_withdraw e c self sender share mina minb dl).
Proof. unfold z_pool_withdraw, pool_withdraw. repeat tc. Qed.
#[export] Hint Resolve tc_pool_withdraw : touch.

Lemma tc_stable_initialize (e : Env) (self : Addr) (i : PoolInit) (factory amp maxfee : Z) :
  touches (z_stable_initialize e self i factory amp maxfee) (stable_initialize e self i factory amp maxfee).
Proof. unfold z_stable_initialize, stable_initialize. repeat tc. Qed.
#[export] Hint Resolve tc_stable_initialize : touch.

Lemma tc_stable_mint_shares (e : Env) (self to amt : Z) :
  touches (z_stable_mint_shares e self to amt) (stable_mint_shares e self to amt).
Proof. unfold z_stable_mint_shares, stable_mint_shares. repeat tc. Qed.
#[export] Hint Resolve tc_stable_mint_shares : touch.

Lemma tc_stable_burn_shares (e : Env) (self amt : Z) :
  touches (z_stable_burn_shares e self amt) (stable_burn_shares e self amt).
Proof. unfold z_stable_burn_shares, stable_burn_shares. repeat tc. Qed.
#[export] Hint Resolve tc_stable_burn_shares : touch.

Lemma tc_stable_provide (e : Env) (c : option Addr) (self sender da db : Z) (custom dl min_shares : option Z) :
  touches (z_stable_provide e c self sender da db custom dl min_shares) (stable_provide e c self sender da db custom dl min_shares).
Proof. unfold z_stable_provide, stable_provide. repeat tc. Qed.
#[export] Hint Resolve tc_stable_provide : touch.

Lemma tc_stable_do_swap (e : Env) (self sender offer amt : Z) (ask_min max_spread max_fee : option Z) :
  touches (z_stable_do_swap e self sender offer amt ask_min max_spread max_fee) (stable_do_swap e self sender offer amt ask_min max_spread max_fee).
Proof. unfold z_stable_do_swap, stable_do_swap. repeat tc. Qed.
#[export] Hint Resolve tc_stable_do_swap : touch.

Lemma tc_stable_swap (e : Env) (c : option Addr) (self sender offer amt : Z) (ask_min max_spread dl max_fee : option Z) :
  touches (z_stable_swap e c self sender offer amt ask_min max_spread dl max_fee) (stable_swap e c self sender offer amt ask_min max_spread dl max_fee).
Proof. unfold z_stable_swap, stable_swap. repeat tc. Qed.
#[export] Hint Resolve tc_stable_swap : touch.

Lemma tc_stable_withdraw (e : Env) (c : option Addr) (self sender share mina minb : Z) (dl : option Z) :
  touches (z_stable_withdraw e c self sender share mina minb dl) (stable_withdraw e c self sender share mina minb dl).
Proof. unfold z_stable_withdraw, stable_withdraw. repeat tc. Qed.
#[export] Hint Resolve tc_stable_withdraw : touch.

Lemma tc_rewards_initialize (self admin staking token maxc minreward minbond : Z) :
  touches (z_rewards_initialize self admin staking token maxc minreward minbond) (rewards_initialize self admin staking token maxc minreward minbond).
Proof. unfold z_rewards_initialize, rewards_initialize. repeat tc. Qed.
#[export] Hint Resolve tc_rewards_initialize : touch.

Lemma tc_rewards_add_user (e : Env) (c : option Addr) (self user : Addr) (b : Bonding) :
  touches (z_rewards_add_user e c self user b) (rewards_add_user e c self user b).
Proof. unfold z_rewards_add_user, rewards_add_user. repeat tc. Qed.
#[export] Hint Resolve tc_rewards_add_user : touch.

Lemma tc_rewards_bond (e : Env) (c : option Addr) (self sender : Addr) (b : Bonding) :
  touches (z_rewards_bond e c self sender b) (rewards_bond e c self sender b).
Proof. unfold z_rewards_bond, rewards_bond. repeat tc. Qed.
#[export] Hint Resolve tc_rewards_bond : touch.

Lemma tc_rewards_withdraw (e : Env) (c : option Addr) (self sender : Addr) (b : Bonding) :
  touches (z_rewards_withdraw e c self sender b) (rewards_withdraw e c self sender b).
Proof. unfold z_rewards_withdraw, rewards_withdraw. repeat tc. Qed.
#[export] Hint Resolve tc_rewards_withdraw : touch.

Lemma tc_rewards_unbond (e : Env) (c : option Addr) (self sender : Addr) (b : Bonding) (removed : Z) :
  touches (z_rewards_unbond e c self sender b removed) (rewards_unbond e c self sender b removed).
Proof.
  unfold z_rewards_unbond, rewards_unbond. do 7 tc.
  apply tc_bind; [match goal with |- touches (if ?b then _ else _) _ => destruct b end; auto with touch | intros ?]. repeat tc.
Qed.
#[export] Hint Resolve tc_rewards_unbond : touch.

Lemma tc_rewards_distribute (e : Env) (c : option Addr) (self total_staked : Z) :
  touches (z_rewards_distribute e c self total_staked) (rewards_distribute e c self total_staked).
Proof. unfold z_rewards_distribute, rewards_distribute. repeat tc. Qed.
#[export] Hint Resolve tc_rewards_distribute : touch.

Lemma tc_rewards_fund (e : Env) (c : option Addr) (self start duration amount : Z) :
  touches (z_rewards_fund e c self start duration amount) (rewards_fund e c self start duration amount).
Proof. unfold z_rewards_fund, rewards_fund. repeat tc. Qed.
#[export] Hint Resolve tc_rewards_fund : touch.

Lemma tc_vest_initialize (self admin token maxc : Z) (minter : option (Addr * Z)) :
  touches (z_vest_initialize self admin token maxc minter) (vest_initialize self admin token maxc minter).
Proof. unfold z_vest_initialize, vest_initialize. repeat tc. Qed.
#[export] Hint Resolve tc_vest_initialize : touch.

Lemma tc_vest_create (e : Env) (c : option Addr) (self : Addr) (l : list (Addr * curve)) :
  touches (z_vest_create e c self l) (vest_create e c self l).
Proof. unfold z_vest_create, vest_create. repeat tc. Qed.
#[export] Hint Resolve tc_vest_create : touch.

Lemma tc_vest_claim (e : Env) (c : option Addr) (self sender i : Addr) :
  touches (z_vest_claim e c self sender i) (vest_claim e c self sender i).
Proof. unfold z_vest_claim, vest_claim. repeat tc. Qed.
#[export] Hint Resolve tc_vest_claim : touch.

Lemma tc_vest_burn (e : Env) (c : option Addr) (self sender amt : Z) :
  touches (z_vest_burn e c self sender amt) (vest_burn e c self sender amt).
Proof. unfold z_vest_burn, vest_burn. repeat tc. Qed.
#[export] Hint Resolve tc_vest_burn : touch.

Lemma tc_vest_mint (e : Env) (c : option Addr) (self sender amt : Z) :
  touches (z_vest_mint e c self sender amt) (vest_mint e c self sender amt).
Proof. unfold z_vest_mint, vest_mint. repeat tc. Qed.
#[export] Hint Resolve tc_vest_mint : touch.

Lemma tc_vest_update_minter (e : Env) (c : option Addr) (self sender new : Addr) :
  touches (z_vest_update_minter e c self sender new) (vest_update_minter e c self sender new).
Proof.
  unfold z_vest_update_minter, vest_update_minter. do 5 tc.
  match goal with |- context [v_minter ?v] => destruct (v_minter v) end; [apply tc_skip|]; repeat tc.
Qed.
#[export] Hint Resolve tc_vest_update_minter : touch.

Lemma tc_vest_update_capacity (e : Env) (c : option Addr) (self sender cap : Z) :
  touches (z_vest_update_capacity e c self sender cap) (vest_update_capacity e c self sender cap).
Proof. unfold z_vest_update_capacity, vest_update_capacity. repeat tc. Qed.
#[export] Hint Resolve tc_vest_update_capacity : touch.

Lemma tc_hop_initialize (self admin factory : Addr) :
  touches (z_hop_initialize self admin factory) (hop_initialize self admin factory).
Proof. unfold z_hop_initialize, hop_initialize. repeat tc. Qed.
#[export] Hint Resolve tc_hop_initialize : touch.

Lemma tc_fact_initialize (e : Env) (self admin lph stabh stakeh tokh : Z) (white : list Addr) (lpdec : Z) :
  touches (z_fact_initialize e self admin lph stabh stakeh tokh white lpdec) (fact_initialize e self admin lph stabh stakeh tokh white lpdec).
Proof. unfold z_fact_initialize, fact_initialize. repeat tc. Qed.
#[export] Hint Resolve tc_fact_initialize : touch.

Lemma tc_fact_create (e : Env) (c : option Addr) (self sender : Addr) (i : PoolInit) (ty : PoolType) (amp : option Z) (defslip maxfee : Z) :
  touches (z_fact_create e c self sender i ty amp defslip maxfee) (fact_create e c self sender i ty amp defslip maxfee).
Proof.
  unfold z_fact_create, fact_create. do 11 tc.
  apply tc_bind; [destruct ty; auto with touch | intros ?]. repeat tc.
Qed.
#[export] Hint Resolve tc_fact_create : touch.

Lemma tc_fact_pool_by_pair (self a b : Addr) :
  touches (z_fact_pool_by_pair self a b) (fact_pool_by_pair self a b).
Proof. unfold z_fact_pool_by_pair, fact_pool_by_pair. repeat tc. Qed.
#[export] Hint Resolve tc_fact_pool_by_pair : touch.

Lemma tc_any_swap (e : Env) (c : option Addr) (pool sender offer amt : Z) (ask_min max_spread dl max_fee : option Z) :
  touches (z_any_swap e c pool sender offer amt ask_min max_spread dl max_fee) (any_swap e c pool sender offer amt ask_min max_spread dl max_fee).
Proof. unfold z_any_swap, any_swap. repeat tc. Qed.
#[export] Hint Resolve tc_any_swap : touch.

Lemma tc_hop_swaps (e : Env) (self fact rcpt : Addr) (ops : list SwapOp) (amt : Z) (max_spread dl max_fee : option Z) :
  touches (z_hop_swaps e self fact rcpt ops amt max_spread dl max_fee) (hop_swaps e self fact rcpt ops amt max_spread dl max_fee).
Proof. revert amt. induction ops as [|o l IH]; intros amt; simpl; repeat tc. Qed.
#[export] Hint Resolve tc_hop_swaps : touch.

Lemma tc_hop_swap (e : Env) (c : option Addr) (self rcpt : Addr) (ops : list SwapOp) (max_spread : option Z) (amt : Z) (dl max_fee : option Z) :
  touches (z_hop_swap e c self rcpt ops max_spread amt dl max_fee) (hop_swap e c self rcpt ops max_spread amt dl max_fee).
Proof. unfold z_hop_swap, hop_swap. repeat tc. Qed.
#[export] Hint Resolve tc_hop_swap : touch.

Lemma tc_trader_initialize (e : Env) (c : option Addr) (self admin ta tb out : Addr) :
  touches (z_trader_initialize e c self admin ta tb out) (trader_initialize e c self admin ta tb out).
Proof. unfold z_trader_initialize, trader_initialize. repeat tc. Qed.
#[export] Hint Resolve tc_trader_initialize : touch.

Lemma tc_trader_trade (e : Env) (c : option Addr) (self sender tok pool : Addr) (amount max_spread dl ask_min max_fee : option Z) :
  touches (z_trader_trade e c self sender tok pool amount max_spread dl ask_min max_fee) (trader_trade e c self sender tok pool amount max_spread dl ask_min max_fee).
Proof.
  unfold z_trader_trade, trader_trade. do 7 tc.
  apply tc_bind; [destruct amount; auto with touch | intros ?]. repeat tc.
Qed.
#[export] Hint Resolve tc_trader_trade : touch.

Lemma tc_trader_transfer (e : Env) (c : option Addr) (self sender rcpt amt : Z) (tok : option Addr) :
  touches (z_trader_transfer e c self sender rcpt amt tok) (trader_transfer e c self sender rcpt amt tok).
Proof. unfold z_trader_transfer, trader_transfer. repeat tc. Qed.
#[export] Hint Resolve tc_trader_transfer : touch.

Lemma tc_pool_update_config (e : Env) (c : option Addr) (self : Addr) (admin fee feerec maxslip maxspread maxref : option Z) :
  touches (z_pool_update_config e c self admin fee feerec maxslip maxspread maxref) (pool_update_config e c self admin fee feerec maxslip maxspread maxref).
Proof. unfold z_pool_update_config, pool_update_config. repeat tc. Qed.
#[export] Hint Resolve tc_pool_update_config : touch.

Lemma tc_pool_update (e : Env) (c : option Addr) (self hash : Z) :
  touches (z_pool_update e c self hash) (pool_update e c self hash).
Proof. unfold z_pool_update, pool_update. repeat tc. Qed.
#[export] Hint Resolve tc_pool_update : touch.

Lemma tc_pool_upgrade (e : Env) (c : option Addr) (self hash defslip : Z) :
  touches (z_pool_upgrade e c self hash defslip) (pool_upgrade e c self hash defslip).
Proof. unfold z_pool_upgrade, pool_upgrade. repeat tc. Qed.
#[export] Hint Resolve tc_pool_upgrade : touch.

Lemma tc_stable_upgrade (e : Env) (c : option Addr) (self hash : Z) :
  touches (z_stable_upgrade e c self hash) (stable_upgrade e c self hash).
Proof. unfold z_stable_upgrade, stable_upgrade. repeat tc. Qed.
#[export] Hint Resolve tc_stable_upgrade : touch.

Lemma tc_stake_update (e : Env) (c : option Addr) (self hash : Z) :
  touches (z_stake_update e c self hash) (stake_update e c self hash).
Proof. unfold z_stake_update, stake_update. repeat tc. Qed.
#[export] Hint Resolve tc_stake_update : touch.

Lemma tc_rewards_update (e : Env) (c : option Addr) (self hash : Z) :
  touches (z_rewards_update e c self hash) (rewards_update e c self hash).
Proof. unfold z_rewards_update, rewards_update. repeat tc. Qed.
#[export] Hint Resolve tc_rewards_update : touch.

Lemma tc_vest_update (e : Env) (c : option Addr) (self hash : Z) :
  touches (z_vest_update e c self hash) (vest_update e c self hash).
Proof. unfold z_vest_update, vest_update. repeat tc. Qed.
#[export] Hint Resolve tc_vest_update : touch.

Lemma tc_fact_update_whitelist (e : Env) (c : option Addr) (self sender : Addr) (add rm : list Addr) :
  touches (z_fact_update_whitelist e c self sender add rm) (fact_update_whitelist e c self sender add rm).
Proof. unfold z_fact_update_whitelist, fact_update_whitelist. repeat tc. Qed.
#[export] Hint Resolve tc_fact_update_whitelist : touch.

Lemma tc_fact_update_hashes (e : Env) (c : option Addr) (self : Addr) (lph stakeh tokh : option Z) :
  touches (z_fact_update_hashes e c self lph stakeh tokh) (fact_update_hashes e c self lph stakeh tokh).
Proof. unfold z_fact_update_hashes, fact_update_hashes. repeat tc. Qed.
#[export] Hint Resolve tc_fact_update_hashes : touch.

Lemma tc_fact_update (e : Env) (c : option Addr) (self hash stabh : Z) :
  touches (z_fact_update e c self hash stabh) (fact_update e c self hash stabh).
Proof. unfold z_fact_update, fact_update. repeat tc. Qed.
#[export] Hint Resolve tc_fact_update : touch.

Lemma tc_hop_update (e : Env) (c : option Addr) (self hash : Z) :
  touches (z_hop_update e c self hash) (hop_update e c self hash).
Proof. unfold z_hop_update, hop_update. repeat tc. Qed.
#[export] Hint Resolve tc_hop_update : touch.

Lemma tc_stable_update_config (self sender : Addr) (admin fee feerec maxslip maxspread : option Z) :
  touches (z_stable_update_config self sender admin fee feerec maxslip maxspread) (stable_update_config self sender admin fee feerec maxslip maxspread).
Proof. apply tc_tail2, tc_tf. Qed.
#[export] Hint Resolve tc_stable_update_config : touch.


Lemma tc_drop {A} (m : TST A) m0 : touches m m0 -> touches (z_drop m) (drop m0).
Proof. intros E. unfold z_drop, drop. apply tc_bind; auto with touch. Qed.
#[export] Hint Resolve tc_drop : touch.

Theorem zexec_touches e k : touches (zexec e k) (exec e k).
Proof. destruct k; simpl; auto 6 with touch. destruct k; auto with touch. Qed.
