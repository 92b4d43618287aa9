(** Recording demands changes nothing: [aexec] succeeds exactly when [exec] does, with the
    same error otherwise and the same final ledger.  And the recorded demands are exact: with
    any other set of signers the same call succeeds, in the same way, if all the recorded
    addresses have signed, and fails otherwise. *)
From Coq Require Import ZArith List Bool Lia.
From Verif Require Import Base FMap Decimal Curve World Token Stake Pool Stable Rewards Vest Factory Router System Asks.
Import ListNotations.
Open Scope Z_scope.

Definition signed (e : Env) (D : list Ask) : bool := forallb (fun x => signs e (k_who x)) D.

Lemma signed_app e D1 D2 : signed e (D1 ++ D2) = signed e D1 && signed e D2.
Proof. apply forallb_app. Qed.

Section Two.
Context {e e' : Env}.

(** [m]: recording run with the signers of [e]; [m']: with those of [e']; [m0]: the run of
    the model with the signers of [e]. *)
Definition asks {A} (m m' : AST A) (m0 : ST World A) : Prop := forall w l,
  match m0 w with
  | Ok (a, w') => exists D, m (w, l) = Ok (a, (w', l ++ D)) /\ signed e D = true /\
      if signed e' D then m' (w, l) = Ok (a, (w', l ++ D)) else exists x, m' (w, l) = Err x
  | Err x => m (w, l) = Err x
  end.

Lemma ak_eq {A} (m m' : ST World A) : (forall w, m' w = m w) -> asks (af m) (af m') m.
Proof.
  intros E w l. unfold af. simpl. rewrite E. destruct (m w) as [[a w']|x]; auto.
  exists []. rewrite app_nil_r. repeat split.
Qed.
Lemma ak_af {A} (m : ST World A) : asks (af m) (af m) m.
Proof. now apply ak_eq. Qed.

Lemma ak_bind {A B} (m m' : AST A) m0 (k k' : A -> AST B) k0 :
  asks m m' m0 -> (forall a, asks (k a) (k' a) (k0 a)) -> asks (mbind m k) (mbind m' k') (mbind m0 k0).
Proof.
  intros E F w l. unfold mbind. specialize (E w l).
  destruct (m0 w) as [[a w1]|x].
  - destruct E as (D1 & E & S1 & E'). rewrite E; cbv beta iota. specialize (F a w1 (l ++ D1)).
    destruct (k0 a w1) as [[b w2]|x]; auto.
    destruct F as (D2 & F & S2 & F'). exists (D1 ++ D2). rewrite app_assoc, !signed_app.
    split; [exact F|]. split; [now rewrite S1, S2|].
    destruct (signed e' D1) eqn:G1; cbn [andb].
    + rewrite E'; cbv beta iota. exact F'.
    + destruct E' as [x ->]. now exists x.
  - now rewrite E.
Qed.

Lemma ak_ask c a k : asks (ask e c a k) (ask e' c a k) (require_auth e c a).
Proof.
  intros w l. unfold ask, mbind, af, require_auth, mguard, note, authed. simpl.
  change (match c with Some x => x =? a | None => false end) with (invoker c a).
  destruct (invoker c a).
  - rewrite !orb_true_r. exists []. repeat split.
  - rewrite !orb_false_r. destruct (signs e a) eqn:S1; auto.
    exists [mkAsk a c k]. unfold signed. simpl. rewrite S1.
    split; [reflexivity|]. split; [reflexivity|].
    destruct (signs e' a); simpl; eauto.
Qed.

Lemma ak_ret {A} (a : A) : asks (mret a) (mret a) (mret a).
Proof. intros w l. exists []. unfold mret. rewrite app_nil_r. repeat split. Qed.
Lemma ak_fail {A} x : @asks A (mfail x) (mfail x) (mfail x).
Proof. intros w l. reflexivity. Qed.
Lemma ak_mlift {A} (r : res A) : asks (mlift r) (mlift r) (mlift r).
Proof. intros w l. unfold mlift. destruct r; auto. exists []. rewrite app_nil_r. repeat split. Qed.
Lemma ak_mguard b x : asks (mguard b x) (mguard b x) (mguard b x).
Proof. intros w l. unfold mguard. destruct b; auto. exists []. rewrite app_nil_r. repeat split. Qed.
End Two.

Create HintDb asks.
#[export] Hint Resolve ak_af ak_ret ak_fail ak_mlift ak_mguard ak_ask : asks.

Ltac ak :=
  match goal with
  | |- asks (af ?m) (af ?m) ?m => apply ak_af
  | |- asks (if ?b then _ else _) _ (if ?b then _ else _) => destruct b
  | |- asks (match ?x with _ => _ end) _ (match ?x with _ => _ end) => destruct x
  | |- asks (mbind ?m _) _ (mbind ?m0 _) => apply ak_bind; [solve [auto with asks] | intros ?]
  | |- asks _ _ _ => solve [auto with asks]
  end.

Lemma k_mint {e e'} (HH : e_hash e' = e_hash e) c t to amt :
  @asks e e' _ (a_mint e c t to amt) (a_mint e' c t to amt) (tok_mint e c t to amt).
Proof. unfold a_mint, tok_mint. repeat ak. Qed.
#[export] Hint Resolve k_mint : asks.
Lemma k_set_admin {e e'} (HH : e_hash e' = e_hash e) c t new :
  @asks e e' _ (a_set_admin e c t new) (a_set_admin e' c t new) (tok_set_admin e c t new).
Proof. unfold a_set_admin, tok_set_admin. repeat ak. Qed.
#[export] Hint Resolve k_set_admin : asks.
Lemma k_approve {e e'} (HH : e_hash e' = e_hash e) c t from sp amt ex :
  @asks e e' _ (a_approve e c t from sp amt ex) (a_approve e' c t from sp amt ex) (tok_approve e c t from sp amt ex).
Proof. unfold a_approve, tok_approve. repeat ak. Qed.
#[export] Hint Resolve k_approve : asks.
Lemma k_transfer {e e'} (HH : e_hash e' = e_hash e) c t from to amt :
  @asks e e' _ (a_transfer e c t from to amt) (a_transfer e' c t from to amt) (tok_transfer e c t from to amt).
Proof. unfold a_transfer, tok_transfer. repeat ak. Qed.
#[export] Hint Resolve k_transfer : asks.
Lemma k_transfer_from {e e'} (HH : e_hash e' = e_hash e) c t sp from to amt :
  @asks e e' _ (a_transfer_from e c t sp from to amt) (a_transfer_from e' c t sp from to amt) (tok_transfer_from e c t sp from to amt).
Proof. unfold a_transfer_from, tok_transfer_from. repeat ak. Qed.
#[export] Hint Resolve k_transfer_from : asks.
Lemma k_burn {e e'} (HH : e_hash e' = e_hash e) c t from amt :
  @asks e e' _ (a_burn e c t from amt) (a_burn e' c t from amt) (tok_burn e c t from amt).
Proof. unfold a_burn, tok_burn. repeat ak. Qed.
#[export] Hint Resolve k_burn : asks.
Lemma k_burn_from {e e'} (HH : e_hash e' = e_hash e) c t sp from amt :
  @asks e e' _ (a_burn_from e c t sp from amt) (a_burn_from e' c t sp from amt) (tok_burn_from e c t sp from amt).
Proof. unfold a_burn_from, tok_burn_from. repeat ak. Qed.
#[export] Hint Resolve k_burn_from : asks.
Lemma k_stake_bond {e e'} (HH : e_hash e' = e_hash e) c self sender tokens :
  @asks e e' _ (a_stake_bond e c self sender tokens) (a_stake_bond e' c self sender tokens) (stake_bond e c self sender tokens).
Proof. unfold a_stake_bond, stake_bond. repeat ak. Qed.
#[export] Hint Resolve k_stake_bond : asks.
Lemma k_stake_unbond {e e'} (HH : e_hash e' = e_hash e) c self sender amt ts :
  @asks e e' _ (a_stake_unbond e c self sender amt ts) (a_stake_unbond e' c self sender amt ts) (stake_unbond e c self sender amt ts).
Proof. unfold a_stake_unbond, stake_unbond. repeat ak. Qed.
#[export] Hint Resolve k_stake_unbond : asks.
Lemma k_stake_create_flow {e e'} (HH : e_hash e' = e_hash e) c self sender asset :
  @asks e e' _ (a_stake_create_flow e c self sender asset) (a_stake_create_flow e' c self sender asset) (stake_create_flow e c self sender asset).
Proof. unfold a_stake_create_flow, stake_create_flow. repeat ak. Qed.
#[export] Hint Resolve k_stake_create_flow : asks.
Lemma k_stake_distribute {e e'} (HH : e_hash e' = e_hash e) c self sender amt token :
  @asks e e' _ (a_stake_distribute e c self sender amt token) (a_stake_distribute e' c self sender amt token) (stake_distribute e c self sender amt token).
Proof. unfold a_stake_distribute, stake_distribute. repeat ak. Qed.
#[export] Hint Resolve k_stake_distribute : asks.
Lemma k_pay_rewards {e e'} (HH : e_hash e' = e_hash e) self sender s t b assets :
  @asks e e' _ (a_pay_rewards e self sender s t b assets) (a_pay_rewards e' self sender s t b assets) (pay_rewards e self sender s t b assets).
Proof. induction assets as [|y l IH]; simpl; repeat ak. Qed.
#[export] Hint Resolve k_pay_rewards : asks.
Lemma k_stake_withdraw_rewards {e e'} (HH : e_hash e' = e_hash e) self sender :
  @asks e e' _ (a_stake_withdraw_rewards e self sender) (a_stake_withdraw_rewards e' self sender) (stake_withdraw_rewards e self sender).
Proof. unfold a_stake_withdraw_rewards, stake_withdraw_rewards. repeat ak. Qed.
#[export] Hint Resolve k_stake_withdraw_rewards : asks.
Lemma k_mint_shares {e e'} (HH : e_hash e' = e_hash e) self to amt :
  @asks e e' _ (a_mint_shares e self to amt) (a_mint_shares e' self to amt) (mint_shares e self to amt).
Proof. unfold a_mint_shares, mint_shares. repeat ak. Qed.
#[export] Hint Resolve k_mint_shares : asks.
Lemma k_burn_shares {e e'} (HH : e_hash e' = e_hash e) self amt :
  @asks e e' _ (a_burn_shares e self amt) (a_burn_shares e' self amt) (burn_shares e self amt).
Proof. unfold a_burn_shares, burn_shares. repeat ak. Qed.
#[export] Hint Resolve k_burn_shares : asks.
Lemma k_new_share_total {e e'} (HH : e_hash e' = e_hash e) self a b bala balb p :
  @asks e e' _ (a_new_share_total e self a b bala balb p) (a_new_share_total e' self a b bala balb p) (new_share_total e self a b bala balb p).
Proof. unfold a_new_share_total, new_share_total. repeat ak. Qed.
#[export] Hint Resolve k_new_share_total : asks.
Lemma k_pool_provide {e e'} (HH : e_hash e' = e_hash e) c self sender da mina db minb custom dl :
  @asks e e' _ (a_pool_provide e c self sender da mina db minb custom dl) (a_pool_provide e' c self sender da mina db minb custom dl) (pool_provide e c self sender da mina db minb custom dl).
Proof. unfold a_pool_provide, pool_provide. repeat ak. Qed.
#[export] Hint Resolve k_pool_provide : asks.
Lemma k_do_swap {e e'} (HH : e_hash e' = e_hash e) self sender offer amt ask_min max_spread max_fee :
  @asks e e' _ (a_do_swap e self sender offer amt ask_min max_spread max_fee) (a_do_swap e' self sender offer amt ask_min max_spread max_fee) (do_swap e self sender offer amt ask_min max_spread max_fee).
Proof. unfold a_do_swap, do_swap. repeat ak. Qed.
#[export] Hint Resolve k_do_swap : asks.
Lemma k_pool_swap {e e'} (HH : e_hash e' = e_hash e) c self sender offer amt ask_min max_spread dl max_fee :
  @asks e e' _ (a_pool_swap e c self sender offer amt ask_min max_spread dl max_fee) (a_pool_swap e' c self sender offer amt ask_min max_spread dl max_fee) (pool_swap e c self sender offer amt ask_min max_spread dl max_fee).
Proof. unfold a_pool_swap, pool_swap. repeat ak. Qed.
#[export] Hint Resolve k_pool_swap : asks.
Lemma k_pool_withdraw {e e'} (HH : e_hash e' = e_hash e) c self sender share mina minb dl :
  @asks e e' _ (a_pool_withdraw e c self sender share mina minb dl) (a_pool_withdraw e' c self sender share mina minb dl) (pool_withdraw e c self sender share mina minb dl).
Proof. unfold a_pool_withdraw, pool_withdraw. repeat ak. Qed.
#[export] Hint Resolve k_pool_withdraw : asks.
Lemma k_stable_mint_shares {e e'} (HH : e_hash e' = e_hash e) self to amt :
  @asks e e' _ (a_stable_mint_shares e self to amt) (a_stable_mint_shares e' self to amt) (stable_mint_shares e self to amt).
Proof. unfold a_stable_mint_shares, stable_mint_shares. repeat ak. Qed.
#[export] Hint Resolve k_stable_mint_shares : asks.
Lemma k_stable_burn_shares {e e'} (HH : e_hash e' = e_hash e) self amt :
  @asks e e' _ (a_stable_burn_shares e self amt) (a_stable_burn_shares e' self amt) (stable_burn_shares e self amt).
Proof. unfold a_stable_burn_shares, stable_burn_shares. repeat ak. Qed.
#[export] Hint Resolve k_stable_burn_shares : asks.
Lemma k_stable_provide {e e'} (HH : e_hash e' = e_hash e) c self sender da db custom dl min_shares :
  @asks e e' _ (a_stable_provide e c self sender da db custom dl min_shares) (a_stable_provide e' c self sender da db custom dl min_shares) (stable_provide e c self sender da db custom dl min_shares).
Proof. unfold a_stable_provide, stable_provide. repeat ak. Qed.
#[export] Hint Resolve k_stable_provide : asks.
Lemma k_stable_do_swap {e e'} (HH : e_hash e' = e_hash e) self sender offer amt ask_min max_spread max_fee :
  @asks e e' _ (a_stable_do_swap e self sender offer amt ask_min max_spread max_fee) (a_stable_do_swap e' self sender offer amt ask_min max_spread max_fee) (stable_do_swap e self sender offer amt ask_min max_spread max_fee).
Proof. unfold a_stable_do_swap, stable_do_swap. repeat ak. Qed.
#[export] Hint Resolve k_stable_do_swap : asks.
Lemma k_stable_swap {e e'} (HH : e_hash e' = e_hash e) c self sender offer amt ask_min max_spread dl max_fee :
  @asks e e' _ (a_stable_swap e c self sender offer amt ask_min max_spread dl max_fee) (a_stable_swap e' c self sender offer amt ask_min max_spread dl max_fee) (stable_swap e c self sender offer amt ask_min max_spread dl max_fee).
Proof. unfold a_stable_swap, stable_swap. repeat ak. Qed.
#[export] Hint Resolve k_stable_swap : asks.
Lemma k_stable_withdraw {e e'} (HH : e_hash e' = e_hash e) c self sender share mina minb dl :
  @asks e e' _ (a_stable_withdraw e c self sender share mina minb dl) (a_stable_withdraw e' c self sender share mina minb dl) (stable_withdraw e c self sender share mina minb dl).
Proof. unfold a_stable_withdraw, stable_withdraw. repeat ak. Qed.
#[export] Hint Resolve k_stable_withdraw : asks.
Lemma k_rewards_add_user {e e'} (HH : e_hash e' = e_hash e) c self user b :
  @asks e e' _ (a_rewards_add_user e c self user b) (a_rewards_add_user e' c self user b) (rewards_add_user e c self user b).
Proof. unfold a_rewards_add_user, rewards_add_user. repeat ak. Qed.
#[export] Hint Resolve k_rewards_add_user : asks.
Lemma k_rewards_bond {e e'} (HH : e_hash e' = e_hash e) c self sender b :
  @asks e e' _ (a_rewards_bond e c self sender b) (a_rewards_bond e' c self sender b) (rewards_bond e c self sender b).
Proof. unfold a_rewards_bond, rewards_bond. repeat ak. Qed.
#[export] Hint Resolve k_rewards_bond : asks.
Lemma k_rewards_withdraw {e e'} (HH : e_hash e' = e_hash e) fr c self sender b :
  @asks e e' _ (a_rewards_withdraw fr e c self sender b) (a_rewards_withdraw fr e' c self sender b) (rewards_withdraw e c self sender b).
Proof. unfold a_rewards_withdraw, rewards_withdraw. repeat ak. Qed.
#[export] Hint Resolve k_rewards_withdraw : asks.
Lemma k_rewards_unbond {e e'} (HH : e_hash e' = e_hash e) c self sender b removed :
  @asks e e' _ (a_rewards_unbond e c self sender b removed) (a_rewards_unbond e' c self sender b removed) (rewards_unbond e c self sender b removed).
Proof.
  unfold a_rewards_unbond, rewards_unbond. do 5 ak.
  apply ak_bind; [match goal with |- asks (if ?b then _ else _) _ _ => destruct b end; auto with asks | intros ?]. repeat ak.
Qed.
#[export] Hint Resolve k_rewards_unbond : asks.
Lemma k_rewards_distribute {e e'} (HH : e_hash e' = e_hash e) c self total_staked :
  @asks e e' _ (a_rewards_distribute e c self total_staked) (a_rewards_distribute e' c self total_staked) (rewards_distribute e c self total_staked).
Proof. unfold a_rewards_distribute, rewards_distribute. repeat ak. Qed.
#[export] Hint Resolve k_rewards_distribute : asks.
Lemma k_rewards_fund {e e'} (HH : e_hash e' = e_hash e) c self start duration amount :
  @asks e e' _ (a_rewards_fund e c self start duration amount) (a_rewards_fund e' c self start duration amount) (rewards_fund e c self start duration amount).
Proof. unfold a_rewards_fund, rewards_fund. repeat ak. Qed.
#[export] Hint Resolve k_rewards_fund : asks.
Lemma k_vest_create {e e'} (HH : e_hash e' = e_hash e) c self l :
  @asks e e' _ (a_vest_create e c self l) (a_vest_create e' c self l) (vest_create e c self l).
Proof. unfold a_vest_create, vest_create. repeat ak. Qed.
#[export] Hint Resolve k_vest_create : asks.
Lemma k_vest_claim {e e'} (HH : e_hash e' = e_hash e) c self sender i :
  @asks e e' _ (a_vest_claim e c self sender i) (a_vest_claim e' c self sender i) (vest_claim e c self sender i).
Proof. unfold a_vest_claim, vest_claim. repeat ak. Qed.
#[export] Hint Resolve k_vest_claim : asks.
Lemma k_vest_burn {e e'} (HH : e_hash e' = e_hash e) c self sender amt :
  @asks e e' _ (a_vest_burn e c self sender amt) (a_vest_burn e' c self sender amt) (vest_burn e c self sender amt).
Proof. unfold a_vest_burn, vest_burn. repeat ak. Qed.
#[export] Hint Resolve k_vest_burn : asks.
Lemma k_vest_mint {e e'} (HH : e_hash e' = e_hash e) c self sender amt :
  @asks e e' _ (a_vest_mint e c self sender amt) (a_vest_mint e' c self sender amt) (vest_mint e c self sender amt).
Proof. unfold a_vest_mint, vest_mint. repeat ak. Qed.
#[export] Hint Resolve k_vest_mint : asks.
Lemma k_vest_update_minter {e e'} (HH : e_hash e' = e_hash e) c self sender new :
  @asks e e' _ (a_vest_update_minter e c self sender new) (a_vest_update_minter e' c self sender new) (vest_update_minter e c self sender new).
Proof. unfold a_vest_update_minter, vest_update_minter. repeat ak. Qed.
#[export] Hint Resolve k_vest_update_minter : asks.
Lemma k_vest_update_capacity {e e'} (HH : e_hash e' = e_hash e) c self sender cap :
  @asks e e' _ (a_vest_update_capacity e c self sender cap) (a_vest_update_capacity e' c self sender cap) (vest_update_capacity e c self sender cap).
Proof. unfold a_vest_update_capacity, vest_update_capacity. repeat ak. Qed.
#[export] Hint Resolve k_vest_update_capacity : asks.
(** the initialisers depend on the transaction only through the address derivation *)
Lemma pool_initialize_hash e e' (HH : e_hash e' = e_hash e) p i f d s m w :
  pool_initialize e' p i f d s m w = pool_initialize e p i f d s m w.
Proof. unfold pool_initialize, deploy_share, deploy_stake_of. now rewrite HH. Qed.
Lemma stable_initialize_hash e e' (HH : e_hash e' = e_hash e) p i f a m w :
  stable_initialize e' p i f a m w = stable_initialize e p i f a m w.
Proof. unfold stable_initialize, deploy_share, deploy_stake_of. now rewrite HH. Qed.
Lemma fact_initialize_hash e e' (HH : e_hash e' = e_hash e) f a lp sb sk tk wl d w :
  fact_initialize e' f a lp sb sk tk wl d w = fact_initialize e f a lp sb sk tk wl d w.
Proof. unfold fact_initialize. now rewrite HH. Qed.
Lemma k_fact_create {e e'} (HH : e_hash e' = e_hash e) c self sender i ty amp defslip maxfee :
  @asks e e' _ (a_fact_create e c self sender i ty amp defslip maxfee) (a_fact_create e' c self sender i ty amp defslip maxfee) (fact_create e c self sender i ty amp defslip maxfee).
Proof.
  unfold a_fact_create, fact_create. rewrite HH. do 10 ak.
  apply ak_bind; [destruct ty; apply ak_eq; intros w; [now apply pool_initialize_hash|now apply stable_initialize_hash] | intros ?]. repeat ak.
Qed.
#[export] Hint Resolve k_fact_create : asks.
Lemma k_any_swap {e e'} (HH : e_hash e' = e_hash e) c pool sender offer amt ask_min max_spread dl max_fee :
  @asks e e' _ (a_any_swap e c pool sender offer amt ask_min max_spread dl max_fee) (a_any_swap e' c pool sender offer amt ask_min max_spread dl max_fee) (any_swap e c pool sender offer amt ask_min max_spread dl max_fee).
Proof. unfold a_any_swap, any_swap. repeat ak. Qed.
#[export] Hint Resolve k_any_swap : asks.
Lemma k_hop_swaps {e e'} (HH : e_hash e' = e_hash e) self fact rcpt ops max_spread dl max_fee : forall amt,
  @asks e e' _ (a_hop_swaps e self fact rcpt ops amt max_spread dl max_fee) (a_hop_swaps e' self fact rcpt ops amt max_spread dl max_fee) (hop_swaps e self fact rcpt ops amt max_spread dl max_fee).
Proof. induction ops as [|o l IH]; intros amt; simpl; repeat ak. Qed.
#[export] Hint Resolve k_hop_swaps : asks.
Lemma k_hop_swap {e e'} (HH : e_hash e' = e_hash e) c self rcpt ops max_spread amt dl max_fee :
  @asks e e' _ (a_hop_swap e c self rcpt ops max_spread amt dl max_fee) (a_hop_swap e' c self rcpt ops max_spread amt dl max_fee) (hop_swap e c self rcpt ops max_spread amt dl max_fee).
Proof. unfold a_hop_swap, hop_swap. repeat ak. Qed.
#[export] Hint Resolve k_hop_swap : asks.
Lemma k_trader_initialize {e e'} (HH : e_hash e' = e_hash e) c self admin ta tb out :
  @asks e e' _ (a_trader_initialize e c self admin ta tb out) (a_trader_initialize e' c self admin ta tb out) (trader_initialize e c self admin ta tb out).
Proof. unfold a_trader_initialize, trader_initialize. repeat ak. Qed.
#[export] Hint Resolve k_trader_initialize : asks.
Lemma k_trader_trade {e e'} (HH : e_hash e' = e_hash e) c self sender tok pool amount max_spread dl ask_min max_fee :
  @asks e e' _ (a_trader_trade e c self sender tok pool amount max_spread dl ask_min max_fee) (a_trader_trade e' c self sender tok pool amount max_spread dl ask_min max_fee) (trader_trade e c self sender tok pool amount max_spread dl ask_min max_fee).
Proof. unfold a_trader_trade, trader_trade. repeat ak. Qed.
#[export] Hint Resolve k_trader_trade : asks.
Lemma k_trader_transfer {e e'} (HH : e_hash e' = e_hash e) c self sender rcpt amt tok :
  @asks e e' _ (a_trader_transfer e c self sender rcpt amt tok) (a_trader_transfer e' c self sender rcpt amt tok) (trader_transfer e c self sender rcpt amt tok).
Proof. unfold a_trader_transfer, trader_transfer. repeat ak. Qed.
#[export] Hint Resolve k_trader_transfer : asks.
Lemma k_pool_update_config {e e'} (HH : e_hash e' = e_hash e) c self admin fee feerec maxslip maxspread maxref :
  @asks e e' _ (a_pool_update_config e c self admin fee feerec maxslip maxspread maxref) (a_pool_update_config e' c self admin fee feerec maxslip maxspread maxref) (pool_update_config e c self admin fee feerec maxslip maxspread maxref).
Proof. unfold a_pool_update_config, pool_update_config. repeat ak. Qed.
#[export] Hint Resolve k_pool_update_config : asks.
Lemma k_pool_update {e e'} (HH : e_hash e' = e_hash e) c self hash :
  @asks e e' _ (a_pool_update e c self hash) (a_pool_update e' c self hash) (pool_update e c self hash).
Proof. unfold a_pool_update, pool_update. repeat ak. Qed.
#[export] Hint Resolve k_pool_update : asks.
Lemma k_pool_upgrade {e e'} (HH : e_hash e' = e_hash e) c self hash defslip :
  @asks e e' _ (a_pool_upgrade e c self hash defslip) (a_pool_upgrade e' c self hash defslip) (pool_upgrade e c self hash defslip).
Proof. unfold a_pool_upgrade, pool_upgrade. repeat ak. Qed.
#[export] Hint Resolve k_pool_upgrade : asks.
Lemma k_stable_upgrade {e e'} (HH : e_hash e' = e_hash e) c self hash :
  @asks e e' _ (a_stable_upgrade e c self hash) (a_stable_upgrade e' c self hash) (stable_upgrade e c self hash).
Proof. unfold a_stable_upgrade, stable_upgrade. repeat ak. Qed.
#[export] Hint Resolve k_stable_upgrade : asks.
Lemma k_stake_update {e e'} (HH : e_hash e' = e_hash e) c self hash :
  @asks e e' _ (a_stake_update e c self hash) (a_stake_update e' c self hash) (stake_update e c self hash).
Proof. unfold a_stake_update, stake_update. repeat ak. Qed.
#[export] Hint Resolve k_stake_update : asks.
Lemma k_rewards_update {e e'} (HH : e_hash e' = e_hash e) c self hash :
  @asks e e' _ (a_rewards_update e c self hash) (a_rewards_update e' c self hash) (rewards_update e c self hash).
Proof. unfold a_rewards_update, rewards_update. repeat ak. Qed.
#[export] Hint Resolve k_rewards_update : asks.
Lemma k_vest_update {e e'} (HH : e_hash e' = e_hash e) c self hash :
  @asks e e' _ (a_vest_update e c self hash) (a_vest_update e' c self hash) (vest_update e c self hash).
Proof. unfold a_vest_update, vest_update. repeat ak. Qed.
#[export] Hint Resolve k_vest_update : asks.
Lemma k_fact_update_whitelist {e e'} (HH : e_hash e' = e_hash e) c self sender add rm :
  @asks e e' _ (a_fact_update_whitelist e c self sender add rm) (a_fact_update_whitelist e' c self sender add rm) (fact_update_whitelist e c self sender add rm).
Proof. unfold a_fact_update_whitelist, fact_update_whitelist. repeat ak. Qed.
#[export] Hint Resolve k_fact_update_whitelist : asks.
Lemma k_fact_update_hashes {e e'} (HH : e_hash e' = e_hash e) c self lph stakeh tokh :
  @asks e e' _ (a_fact_update_hashes e c self lph stakeh tokh) (a_fact_update_hashes e' c self lph stakeh tokh) (fact_update_hashes e c self lph stakeh tokh).
Proof. unfold a_fact_update_hashes, fact_update_hashes. repeat ak. Qed.
#[export] Hint Resolve k_fact_update_hashes : asks.
Lemma k_fact_update {e e'} (HH : e_hash e' = e_hash e) c self hash stabh :
  @asks e e' _ (a_fact_update e c self hash stabh) (a_fact_update e' c self hash stabh) (fact_update e c self hash stabh).
Proof. unfold a_fact_update, fact_update. repeat ak. Qed.
#[export] Hint Resolve k_fact_update : asks.
Lemma k_hop_update {e e'} (HH : e_hash e' = e_hash e) c self hash :
  @asks e e' _ (a_hop_update e c self hash) (a_hop_update e' c self hash) (hop_update e c self hash).
Proof. unfold a_hop_update, hop_update. repeat ak. Qed.
#[export] Hint Resolve k_hop_update : asks.

Lemma k_drop {e e' A} (m m' : AST A) m0 : @asks e e' _ m m' m0 -> @asks e e' _ (a_drop m) (a_drop m') (drop m0).
Proof. intros E. unfold a_drop, drop. apply ak_bind; auto with asks. Qed.
#[export] Hint Resolve k_drop : asks.

Theorem aexec_asks e e' k : e_hash e' = e_hash e -> @asks e e' _ (aexec e k) (aexec e' k) (exec e k).
Proof.
  intros HH. destruct k; simpl; auto 6 with asks; try (apply ak_af); try (destruct k; apply ak_af);
    apply ak_eq; intros w; simpl;
    first [now apply pool_initialize_hash | now apply stable_initialize_hash | now apply fact_initialize_hash | reflexivity].
Qed.
