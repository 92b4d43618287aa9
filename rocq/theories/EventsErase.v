(** Recording events changes nothing: [lexec] succeeds exactly when [exec] does, with the
    same error otherwise and the same final ledger; it only appends to the log. *)
From Coq Require Import ZArith List Bool String.
From Verif Require Import Base FMap Decimal Curve World Token Stake Pool Stable Rewards Vest Factory Router System Events.
Import ListNotations.
Open Scope Z_scope.

Definition erases {A} (m : LST A) (m0 : ST World A) : Prop := forall w l,
  match m0 w with
  | Ok (a, w') => exists l', m (w, l) = Ok (a, (w', l ++ l'))
  | Err x => m (w, l) = Err x
  end.

Lemma er_lf {A} (m : ST World A) : erases (lf m) m.
Proof.
  intros w l. unfold lf. simpl. destruct (m w) as [[a w']|x]; auto.
  exists []. now rewrite app_nil_r.
Qed.

Lemma er_bind {A B} (m : LST A) m0 (k : A -> LST B) k0 :
  erases m m0 -> (forall a, erases (k a) (k0 a)) -> erases (mbind m k) (mbind m0 k0).
Proof.
  intros E F w l. unfold mbind. specialize (E w l).
  destruct (m0 w) as [[a w1]|x].
  - destruct E as [l1 E]. rewrite E; cbv beta iota. specialize (F a w1 (l ++ l1)).
    destruct (k0 a w1) as [[b w2]|x]; auto.
    destruct F as [l2 F]. exists (l1 ++ l2). rewrite app_assoc. exact F.
  - now rewrite E.
Qed.

Lemma er_emit {B} c v (k : unit -> LST B) k0 : erases (k tt) k0 -> erases (mbind (emit c v) k) k0.
Proof.
  intros F w l. unfold mbind, emit. simpl. specialize (F w (l ++ [(c, v)])).
  destruct (k0 w) as [[b w2]|x]; auto.
  destruct F as [l2 F]. exists ([(c, v)] ++ l2). rewrite app_assoc. exact F.
Qed.

Lemma er_then {A} (m : LST A) m0 (k : A -> LST A) :
  erases m m0 -> (forall a, erases (k a) (mret a)) -> erases (mbind m k) m0.
Proof.
  intros E F w l. unfold mbind. specialize (E w l).
  destruct (m0 w) as [[a w1]|x].
  - destruct E as [l1 E]. rewrite E; cbv beta iota. specialize (F a w1 (l ++ l1)). simpl in F.
    destruct F as [l2 F]. exists (l1 ++ l2). rewrite app_assoc. exact F.
  - now rewrite E.
Qed.

Lemma er_skip {B} (m : LST unit) (k : unit -> LST B) k0 :
  erases m (mret tt) -> erases (k tt) k0 -> erases (mbind m k) k0.
Proof.
  intros E F w l. unfold mbind. specialize (E w l). simpl in E. destruct E as [l1 E].
  rewrite E; cbv beta iota. specialize (F w (l ++ l1)).
  destruct (k0 w) as [[b w2]|x]; auto.
  destruct F as [l2 F]. exists (l1 ++ l2). rewrite app_assoc. exact F.
Qed.

Lemma er_last c v a : erases (emit c v) (mret a).
Proof. intros w l. destruct a. now exists [(c, v)]. Qed.

Lemma er_ret {A} (a : A) : erases (mret a) (mret a).
Proof. intros w l. exists []. unfold mret. now rewrite app_nil_r. Qed.
Lemma er_fail {A} x : @erases A (mfail x) (mfail x).
Proof. intros w l. reflexivity. Qed.
Lemma er_mlift {A} (r : res A) : erases (mlift r) (mlift r).
Proof. intros w l. unfold mlift. destruct r; auto. exists []. now rewrite app_nil_r. Qed.
Lemma er_mguard b x : erases (mguard b x) (mguard b x).
Proof. intros w l. unfold mguard. destruct b; auto. exists []. now rewrite app_nil_r. Qed.

Create HintDb erase.
#[export] Hint Resolve er_lf er_ret er_fail er_mlift er_mguard er_last : erase.

Ltac er :=
  match goal with
  | |- erases (lf ?m) ?m => apply er_lf
  | |- erases (mbind (pub _ _ _ _) _) _ => apply er_emit
  | |- erases (mbind (emit _ _) _) _ => apply er_emit
  | |- erases (pub _ _ _ _) (mret _) => apply er_last
  | |- erases (mbind (pub_withdraw _ _ _ _ _) _) _ => apply er_skip; [solve [auto with erase] |]
  | |- erases (if ?b then _ else _) (if ?b then _ else _) => destruct b
  | |- erases (match ?x with _ => _ end) (match ?x with _ => _ end) => destruct x
  | |- erases (mbind ?m _) (mbind ?m0 _) => apply er_bind; [solve [auto with erase] | intros ?]
  | |- erases (mbind ?m _) ?m0 => apply er_then; [solve [auto with erase] | intros ?]
  | |- erases _ _ => solve [auto with erase]
  end.

Lemma e_mint e c t to amt : erases (l_mint e c t to amt) (tok_mint e c t to amt).
Proof. unfold l_mint, tok_mint. repeat er. Qed.
Lemma e_set_admin e c t x : erases (l_set_admin e c t x) (tok_set_admin e c t x).
Proof. unfold l_set_admin, tok_set_admin. repeat er. Qed.
Lemma e_approve e c t a b x y : erases (l_approve e c t a b x y) (tok_approve e c t a b x y).
Proof. unfold l_approve. repeat er. Qed.
Lemma e_transfer e c t a b x : erases (l_transfer e c t a b x) (tok_transfer e c t a b x).
Proof. unfold l_transfer. repeat er. Qed.
Lemma e_transfer_from e c t s a b x : erases (l_transfer_from e c t s a b x) (tok_transfer_from e c t s a b x).
Proof. unfold l_transfer_from. repeat er. Qed.
Lemma e_burn e c t a x : erases (l_burn e c t a x) (tok_burn e c t a x).
Proof. unfold l_burn. repeat er. Qed.
Lemma e_burn_from e c t s a x : erases (l_burn_from e c t s a x) (tok_burn_from e c t s a x).
Proof. unfold l_burn_from. repeat er. Qed.
#[export] Hint Resolve e_mint e_set_admin e_approve e_transfer e_transfer_from e_burn e_burn_from : erase.

Lemma e_stake_initialize a b c d x y z u :
  erases (l_stake_initialize a b c d x y z u) (stake_initialize a b c d x y z u).
Proof. unfold l_stake_initialize. repeat er. Qed.
Lemma e_stake_bond e c a b d : erases (l_stake_bond e c a b d) (stake_bond e c a b d).
Proof. unfold l_stake_bond, stake_bond. repeat er. Qed.
Lemma e_stake_unbond e c a b d t : erases (l_stake_unbond e c a b d t) (stake_unbond e c a b d t).
Proof. unfold l_stake_unbond, stake_unbond. repeat er. Qed.
Lemma e_stake_create_flow e c a b d : erases (l_stake_create_flow e c a b d) (stake_create_flow e c a b d).
Proof. unfold l_stake_create_flow. repeat er. Qed.
Lemma e_stake_distribute e c a b d x : erases (l_stake_distribute e c a b d x) (stake_distribute e c a b d x).
Proof. unfold l_stake_distribute, stake_distribute. repeat er. Qed.
Lemma e_pay_rewards e a b s t x l : erases (l_pay_rewards e a b s t x l) (pay_rewards e a b s t x l).
Proof. induction l as [|y l IH]; simpl; repeat er. Qed.
#[export] Hint Resolve e_stake_initialize e_pay_rewards : erase.
Lemma e_stake_withdraw_rewards e a b : erases (l_stake_withdraw_rewards e a b) (stake_withdraw_rewards e a b).
Proof. unfold l_stake_withdraw_rewards, stake_withdraw_rewards. repeat er. Qed.
#[export] Hint Resolve e_stake_bond e_stake_unbond e_stake_create_flow e_stake_distribute
  e_stake_withdraw_rewards : erase.

Lemma e_deploy_stake_of e a b c d x y z u :
  erases (l_deploy_stake_of e a b c d x y z u) (deploy_stake_of e a b c d x y z u).
Proof. unfold l_deploy_stake_of, deploy_stake_of. repeat er. Qed.
#[export] Hint Resolve e_deploy_stake_of : erase.
Lemma e_pool_initialize e a i b c d x : erases (l_pool_initialize e a i b c d x) (pool_initialize e a i b c d x).
Proof. unfold l_pool_initialize, pool_initialize. repeat er. Qed.
Lemma e_mint_shares e a b x : erases (l_mint_shares e a b x) (mint_shares e a b x).
Proof. unfold l_mint_shares, mint_shares. repeat er. Qed.
Lemma e_burn_shares e a x : erases (l_burn_shares e a x) (burn_shares e a x).
Proof. unfold l_burn_shares, burn_shares. repeat er. Qed.
#[export] Hint Resolve e_pool_initialize e_mint_shares e_burn_shares : erase.
Lemma e_new_share_total e a b c d x p : erases (l_new_share_total e a b c d x p) (new_share_total e a b c d x p).
Proof. unfold l_new_share_total, new_share_total. repeat er. Qed.
#[export] Hint Resolve e_new_share_total : erase.
Lemma e_pub_provide a b c d x y u : erases (pub_provide a b c d x y) (mret u).
Proof. unfold pub_provide. repeat er. Qed.
Lemma e_pub_withdraw a b c d x u : erases (pub_withdraw a b c d x) (mret u).
Proof. unfold pub_withdraw. repeat er. Qed.
#[export] Hint Resolve e_pub_provide e_pub_withdraw : erase.
Lemma e_pool_provide e c a b x1 x2 x3 x4 x5 x6 :
  erases (l_pool_provide e c a b x1 x2 x3 x4 x5 x6) (pool_provide e c a b x1 x2 x3 x4 x5 x6).
Proof. unfold l_pool_provide, pool_provide. repeat er. Qed.
Lemma e_do_swap e a b c d x y z : erases (l_do_swap e a b c d x y z) (do_swap e a b c d x y z).
Proof. unfold l_do_swap, do_swap. repeat er. Qed.
#[export] Hint Resolve e_do_swap : erase.
Lemma e_pool_swap e c a b d x x1 x2 x3 x4 :
  erases (l_pool_swap e c a b d x x1 x2 x3 x4) (pool_swap e c a b d x x1 x2 x3 x4).
Proof. unfold l_pool_swap, pool_swap. repeat er. Qed.
Lemma e_pool_withdraw e c a b d x y t : erases (l_pool_withdraw e c a b d x y t) (pool_withdraw e c a b d x y t).
Proof. unfold l_pool_withdraw, pool_withdraw. repeat er. Qed.
#[export] Hint Resolve e_pool_provide e_pool_swap e_pool_withdraw : erase.

Lemma e_stable_initialize e a i b c d : erases (l_stable_initialize e a i b c d) (stable_initialize e a i b c d).
Proof. unfold l_stable_initialize, stable_initialize. repeat er. Qed.
Lemma e_stable_mint_shares e a b x : erases (l_stable_mint_shares e a b x) (stable_mint_shares e a b x).
Proof. unfold l_stable_mint_shares, stable_mint_shares. repeat er. Qed.
Lemma e_stable_burn_shares e a x : erases (l_stable_burn_shares e a x) (stable_burn_shares e a x).
Proof. unfold l_stable_burn_shares, stable_burn_shares. repeat er. Qed.
#[export] Hint Resolve e_stable_initialize e_stable_mint_shares e_stable_burn_shares : erase.
Lemma e_stable_provide e c a b x1 x2 x3 x4 x5 :
  erases (l_stable_provide e c a b x1 x2 x3 x4 x5) (stable_provide e c a b x1 x2 x3 x4 x5).
Proof. unfold l_stable_provide, stable_provide. repeat er. Qed.
Lemma e_stable_do_swap e a b c d x y z : erases (l_stable_do_swap e a b c d x y z) (stable_do_swap e a b c d x y z).
Proof. unfold l_stable_do_swap, stable_do_swap. repeat er. Qed.
#[export] Hint Resolve e_stable_do_swap : erase.
Lemma e_stable_swap e c a b d x x1 x2 x3 x4 :
  erases (l_stable_swap e c a b d x x1 x2 x3 x4) (stable_swap e c a b d x x1 x2 x3 x4).
Proof. unfold l_stable_swap, stable_swap. repeat er. Qed.
Lemma e_stable_withdraw e c a b d x y t :
  erases (l_stable_withdraw e c a b d x y t) (stable_withdraw e c a b d x y t).
Proof. unfold l_stable_withdraw, stable_withdraw. repeat er. Qed.
#[export] Hint Resolve e_stable_provide e_stable_swap e_stable_withdraw : erase.

Lemma e_rewards_initialize a b c d x y z : erases (l_rewards_initialize a b c d x y z) (rewards_initialize a b c d x y z).
Proof. unfold l_rewards_initialize. repeat er. Qed.
Lemma e_rewards_add_user e c a b d : erases (l_rewards_add_user e c a b d) (rewards_add_user e c a b d).
Proof. unfold l_rewards_add_user. repeat er. Qed.
Lemma e_rewards_bond e c a b d : erases (l_rewards_bond e c a b d) (rewards_bond e c a b d).
Proof. unfold l_rewards_bond. repeat er. Qed.
Lemma e_rewards_withdraw e c a b d : erases (l_rewards_withdraw e c a b d) (rewards_withdraw e c a b d).
Proof. unfold l_rewards_withdraw, rewards_withdraw. repeat er. Qed.
#[export] Hint Resolve e_rewards_initialize e_rewards_add_user e_rewards_bond e_rewards_withdraw : erase.
Lemma e_rewards_unbond e c a b d x : erases (l_rewards_unbond e c a b d x) (rewards_unbond e c a b d x).
Proof.
  unfold l_rewards_unbond, rewards_unbond. do 5 er.
  apply er_bind; [destruct (a4 =? 0); auto with erase | intros ?]. repeat er.
Qed.
Lemma e_rewards_distribute e c a b : erases (l_rewards_distribute e c a b) (rewards_distribute e c a b).
Proof. unfold l_rewards_distribute, rewards_distribute. repeat er. Qed.
Lemma e_rewards_fund e c a b d x : erases (l_rewards_fund e c a b d x) (rewards_fund e c a b d x).
Proof. unfold l_rewards_fund, rewards_fund. repeat er. Qed.
#[export] Hint Resolve e_rewards_unbond e_rewards_distribute e_rewards_fund : erase.

Lemma e_vest_initialize a b c d m : erases (l_vest_initialize a b c d m) (vest_initialize a b c d m).
Proof. unfold l_vest_initialize. repeat er. Qed.
Lemma e_vest_create e c a l : erases (l_vest_create e c a l) (vest_create e c a l).
Proof. unfold l_vest_create, vest_create. repeat er. Qed.
Lemma e_vest_claim e c a b i : erases (l_vest_claim e c a b i) (vest_claim e c a b i).
Proof. unfold l_vest_claim, vest_claim. repeat er. Qed.
Lemma e_vest_burn e c a b i : erases (l_vest_burn e c a b i) (vest_burn e c a b i).
Proof. unfold l_vest_burn, vest_burn. repeat er. Qed.
Lemma e_vest_mint e c a b i : erases (l_vest_mint e c a b i) (vest_mint e c a b i).
Proof. unfold l_vest_mint, vest_mint. repeat er. Qed.
Lemma e_vest_update_minter e c a b i : erases (l_vest_update_minter e c a b i) (vest_update_minter e c a b i).
Proof. unfold l_vest_update_minter. repeat er. Qed.
Lemma e_vest_update_capacity e c a b i : erases (l_vest_update_capacity e c a b i) (vest_update_capacity e c a b i).
Proof. unfold l_vest_update_capacity. repeat er. Qed.
#[export] Hint Resolve e_vest_initialize e_vest_create e_vest_claim e_vest_burn e_vest_mint
  e_vest_update_minter e_vest_update_capacity : erase.

Lemma e_hop_initialize a b c : erases (l_hop_initialize a b c) (hop_initialize a b c).
Proof. unfold l_hop_initialize. repeat er. Qed.
#[export] Hint Resolve e_hop_initialize : erase.
Lemma e_fact_initialize e a b c d x y l z : erases (l_fact_initialize e a b c d x y l z) (fact_initialize e a b c d x y l z).
Proof. unfold l_fact_initialize, fact_initialize. repeat er. Qed.
Lemma e_fact_create e c a b i ty amp x y : erases (l_fact_create e c a b i ty amp x y) (fact_create e c a b i ty amp x y).
Proof.
  unfold l_fact_create, fact_create. do 10 er.
  apply er_bind; [destruct ty; auto with erase | intros ?]. repeat er.
Qed.
Lemma e_any_swap e c a b d x x1 x2 x3 x4 :
  erases (l_any_swap e c a b d x x1 x2 x3 x4) (any_swap e c a b d x x1 x2 x3 x4).
Proof. unfold l_any_swap, any_swap. repeat er. Qed.
#[export] Hint Resolve e_fact_initialize e_fact_create e_any_swap : erase.
Lemma e_hop_swaps e a b c x2 x3 x4 l : forall x, erases (l_hop_swaps e a b c l x x2 x3 x4) (hop_swaps e a b c l x x2 x3 x4).
Proof. induction l as [|o l IH]; intros x; simpl; repeat er. Qed.
#[export] Hint Resolve e_hop_swaps : erase.
Lemma e_hop_swap e c a b l x1 x x2 x3 : erases (l_hop_swap e c a b l x1 x x2 x3) (hop_swap e c a b l x1 x x2 x3).
Proof. unfold l_hop_swap, hop_swap. repeat er. Qed.
Lemma e_trader_initialize e c a b d x y : erases (l_trader_initialize e c a b d x y) (trader_initialize e c a b d x y).
Proof. unfold l_trader_initialize. repeat er. Qed.
Lemma e_trader_trade e c a b d x x1 x2 x3 x4 x5 :
  erases (l_trader_trade e c a b d x x1 x2 x3 x4 x5) (trader_trade e c a b d x x1 x2 x3 x4 x5).
Proof. unfold l_trader_trade, trader_trade. repeat er. Qed.
Lemma e_trader_transfer e c a b d x y : erases (l_trader_transfer e c a b d x y) (trader_transfer e c a b d x y).
Proof. unfold l_trader_transfer, trader_transfer. repeat er. Qed.
#[export] Hint Resolve e_hop_swap e_trader_initialize e_trader_trade e_trader_transfer : erase.

Lemma e_drop {A} (m : LST A) m0 : erases m m0 -> erases (l_drop m) (drop m0).
Proof. intros E. unfold l_drop, drop. apply er_bind; auto with erase. Qed.
#[export] Hint Resolve e_drop : erase.

Theorem lexec_erases e k : erases (lexec e k) (exec e k).
Proof. destruct k; simpl; auto with erase; try apply er_lf. Qed.
