(** Token events account for every change of every balance. *)
From Coq Require Import ZArith List Bool String Lia.
From Coq Require Import ZifyBool.
From Verif Require Import Base FMap Decimal Curve World Token Stake Pool Stable Rewards Vest Factory Router System
  TokenProofs Frame Events EventsErase EventsLog.
Import ListNotations.
Open Scope Z_scope.

(** what the event of contract [c] says about the balance of [x] in token [t] *)
Definition says (t x : Addr) (c : Addr) (v : Ev) : Z :=
  if c =? t then
    match v with
    | TMint _ to amt => ind (x =? to) amt
    | TTransfer from to amt => ind (x =? to) amt - ind (x =? from) amt
    | TBurn from amt => - ind (x =? from) amt
    | _ => 0
    end
  else 0.
Definition issues (t : Addr) (c : Addr) (v : Ev) : Z :=
  if c =? t then match v with TMint _ _ amt => amt | TBurn _ amt => - amt | _ => 0 end else 0.
Fixpoint total (f : Addr -> Ev -> Z) (L : Log) : Z :=
  match L with [] => 0 | (c, v) :: tl => f c v + total f tl end.

Lemma total_app f L1 L2 : total f (L1 ++ L2) = total f L1 + total f L2.
Proof. induction L1 as [|[c v] L1 IH]; simpl; lia. Qed.

(** tokens exist only where code is deployed *)
Definition TC (w : World) : Prop := forall t, fget t (w_tok w) <> None -> fget t (w_code w) <> None.

Definition Qtok (w w' : World) (d : Log) : Prop := TC w ->
  TC w' /\ (forall t x, bal w' t x = bal w t x + total (says t x) d) /\
  (forall t, supply w' t = supply w t + total (issues t) d).

Lemma Qtok_rel : LogRel Qtok.
Proof.
  constructor.
  - intros w T. repeat split; auto; intros; simpl; lia.
  - intros w1 w2 w3 d1 d2 A B T. destruct (A T) as [T2 [A1 A2]]. destruct (B T2) as [T3 [B1 B2]].
    repeat split; auto; intros; rewrite total_app.
    + rewrite B1, A1. lia.
    + rewrite B2, A2. lia.
Qed.

(** code that leaves the tokens alone *)
Definition quiet (w w' : World) : Prop :=
  w_tok w' = w_tok w /\ forall a, fget a (w_code w) <> None -> fget a (w_code w') <> None.
Lemma quiet_refl w : quiet w w. Proof. split; auto. Qed.
Lemma quiet_trans a b c : quiet a b -> quiet b c -> quiet a c.
Proof. intros [A1 A2] [B1 B2]. split; [congruence | auto]. Qed.
Lemma quiet_Q w w' : quiet w w' -> Qtok w w' [].
Proof.
  intros [A B] T. repeat split.
  - intros t. rewrite A. intros X. apply B, T, X.
  - intros t x. unfold bal. rewrite A. simpl. lia.
  - intros t. unfold supply. rewrite A. simpl. lia.
Qed.

Lemma q_pure {A} (m : ST World A) : pure m -> safe quiet m.
Proof. intros P w a w' H. rewrite (P _ _ _ H). apply quiet_refl. Qed.
Lemma q_mmod f : (forall w, w_tok (f w) = w_tok w) -> (forall w, w_code (f w) = w_code w) -> safe quiet (mmod f).
Proof. intros A B w a w' H. inversion H; subst. split; [apply A | now rewrite B]. Qed.
Lemma q_deploy a k : safe quiet (deploy a k).
Proof.
  intros w u w' H. apply deploy_ok in H. destruct H as [_ [N ->]]. split; auto.
  intros b X. simpl. rewrite fget_set. destruct (Z.eqb b a); auto. discriminate.
Qed.

Ltac qt :=
  repeat first
  [ solve [apply q_pure; auto with pure]
  | apply q_deploy
  | solve [apply q_mmod; reflexivity]
  | apply (safe_bind _ quiet_trans); [|intro]
  | match goal with
    | |- safe _ (let '(_, _) := ?p in _) => destruct p
    | |- safe _ (if ?b then _ else _) => destruct b
    | |- safe _ (match ?o with _ => _ end) => destruct o
    end
  | progress cbv beta zeta
  | progress unfold stake_initialize, stake_create_flow, rewards_initialize, rewards_add_user, rewards_bond,
      vest_initialize, vest_update_minter, vest_update_capacity, hop_initialize, trader_initialize,
      fact_pool_by_pair, rewards_query, pool_update_config, pool_update, pool_upgrade, stable_update_config,
      stable_upgrade, stake_update, rewards_update, vest_update, fact_update_whitelist, fact_update_hashes,
      fact_update, hop_update, put_pool, put_stable, put_stake, put_rewards, put_vest, put_fact, put_hop,
      put_trader, put_wasm ].

Lemma lq_lf {A} (m : ST World A) : safe quiet m -> logs Qtok (lf m).
Proof. intros E. apply lg_lf. intros w a w' H. apply quiet_Q. eapply E; eauto. Qed.

(** a new token starts with no balances *)
Lemma Q_tok_deploy t a d : safe (fun w w' => Qtok w w' []) (tok_deploy t a d).
Proof.
  intros w u w' H T. apply tok_deploy_ok in H. destruct H as [_ [_ [N ->]]].
  assert (fget t (w_tok w) = None) as N0.
  { destruct (fget t (w_tok w)) eqn:X; auto. exfalso. apply (T t); congruence. }
  repeat split.
  - intros b. simpl. rewrite !fget_set. destruct (Z.eqb b t); [discriminate | apply T].
  - intros b x. unfold bal. simpl. rewrite fget_set. destruct (Z.eqb_spec b t) as [->|]; [|lia].
    rewrite N0. reflexivity.
  - intros b. unfold supply. simpl. rewrite fget_set. destruct (Z.eqb_spec b t) as [->|]; [|lia].
    rewrite N0. reflexivity.
Qed.

Lemma lq_tok_deploy t a d : logs Qtok (lf (tok_deploy t a d)).
Proof. apply lg_lf, Q_tok_deploy. Qed.
Lemma lq_deploy_share e s a b d : logs Qtok (lf (deploy_share e s a b d)).
Proof.
  apply lg_lf. unfold deploy_share.
  assert (Tr : forall x y z, Qtok x y [] -> Qtok y z [] -> Qtok x z []).
  { intros x y z X Y. exact (lq_trans _ Qtok_rel _ _ _ _ _ X Y). }
  apply (safe_bind _ Tr).
  { intros w u w' H. apply mguard_ok in H. destruct H as [_ H]. inversion H. apply (lq_refl _ Qtok_rel). }
  intros _. apply (safe_bind _ Tr); [apply Q_tok_deploy|].
  intros _ w u w' H. inversion H. apply (lq_refl _ Qtok_rel).
Qed.

(** ** The token calls *)
Lemma TC_upd t k k' w w' : TokUpd t k k' w w' -> TC w -> TC w'.
Proof.
  intros [E ->] T b. simpl. rewrite fget_set. destruct (Z.eqb_spec b t) as [->|]; [|apply T].
  intros _. apply T. congruence.
Qed.

Lemma tk_upd_Q t k k' w w' v : TokUpd t k k' w w' ->
  (forall x, tk_balance x k' = tk_balance x k + says t x t v) -> tk_supply k' = tk_supply k + issues t t v ->
  Qtok w w' [(t, v)].
Proof.
  intros U B S T. split; [exact (TC_upd _ _ _ _ _ U T)|]. destruct U as [E ->].
  split; intros b; [intros x|]; simpl; rewrite Z.add_0_r.
  - unfold bal. simpl. rewrite fget_set. destruct (Z.eqb_spec b t) as [->|N].
    + rewrite B, E. reflexivity.
    + unfold says. destruct (Z.eqb_spec t b); [congruence | lia].
  - unfold supply. simpl. rewrite fget_set. destruct (Z.eqb_spec b t) as [->|N].
    + rewrite S, E. reflexivity.
    + unfold issues. destruct (Z.eqb_spec t b); [congruence | lia].
Qed.

Lemma lq_emit_after {A} (m : ST World A) c v :
  (forall w a w', m w = Ok (a, w') -> Qtok w w' [(c, v)]) -> logs Qtok (mbind (lf m) (fun _ => emit c v)).
Proof.
  intros E w l u w' l' H. apply mbind_ok in H. destruct H as [a [[w1 l1] [M K]]].
  apply lf_ok in M. destruct M as [w2 [M X]]. inversion X; subst. apply emit_ok in K. inversion K; subst.
  exists [(c, v)]. split; auto. eapply E; eauto.
Qed.

Lemma lq_transfer e c t a b x : logs Qtok (l_transfer e c t a b x).
Proof.
  apply lq_emit_after. intros w u w' H. apply tok_transfer_ok in H.
  destruct H as [_ [k [k' [U [F _]]]]]. apply (tk_upd_Q t k k'); auto.
  - intros y. rewrite (te_bal _ _ _ _ _ F). unfold says. rewrite Z.eqb_refl. lia.
  - rewrite (te_sup _ _ _ _ _ F). unfold issues. rewrite Z.eqb_refl. lia.
Qed.

Lemma bal_same k k' x : t_bal k' = t_bal k -> tk_balance x k' = tk_balance x k.
Proof. unfold tk_balance. now intros ->. Qed.
Lemma sup_same k k' : t_bal k' = t_bal k -> tk_supply k' = tk_supply k.
Proof. unfold tk_supply. now intros ->. Qed.

Lemma lq_transfer_from e c t s a b x : logs Qtok (l_transfer_from e c t s a b x).
Proof.
  apply lq_emit_after. intros w u w' H. apply tok_transfer_from_ok in H.
  destruct H as [_ [P [k [k0 [k' [S [F [_ U]]]]]]]].
  destruct (tk_spend_allowance_ok _ _ _ _ _ _ P S) as [_ [_ [_ [B _]]]].
  apply (tk_upd_Q t k k'); auto.
  - intros y. rewrite (te_bal _ _ _ _ _ F), (bal_same k k0 y B). unfold says. rewrite Z.eqb_refl. lia.
  - rewrite (te_sup _ _ _ _ _ F), (sup_same k k0 B). unfold issues. rewrite Z.eqb_refl. lia.
Qed.

Lemma tk_write_at a v k x : tk_balance x (tk_write_balance a v k) = if x =? a then v else tk_balance x k.
Proof. unfold tk_balance, tk_write_balance, fgetd. simpl. rewrite fget_set. now destruct (x =? a). Qed.

Lemma lq_burn e c t a x : logs Qtok (l_burn e c t a x).
Proof.
  apply lq_emit_after. intros w u w' H. apply tok_burn_ok in H.
  destruct H as [_ [P [k [U Le]]]]. eapply tk_upd_Q; [exact U| |].
  - intros y. change (tk_balance y (tk_write_balance a (tk_balance a k - x) k) = tk_balance y k + says t y t (TBurn a x)).
    rewrite tk_write_at. unfold says, ind. rewrite Z.eqb_refl. destruct (Z.eqb_spec y a); subst; lia.
  - change (tk_supply (tk_write_balance a (tk_balance a k - x) k) = tk_supply k + issues t t (TBurn a x)).
    rewrite tk_supply_write. unfold issues. rewrite Z.eqb_refl. lia.
Qed.

Lemma lq_burn_from e c t s a x : logs Qtok (l_burn_from e c t s a x).
Proof.
  apply lq_emit_after. intros w u w' H. apply tok_burn_from_ok in H.
  destruct H as [_ [P [k [k0 [S [Le U]]]]]].
  destruct (tk_spend_allowance_ok _ _ _ _ _ _ P S) as [_ [_ [_ [B _]]]].
  eapply tk_upd_Q; [exact U| |].
  - intros y. change (tk_balance y (tk_write_balance a (tk_balance a k0 - x) k0) = tk_balance y k + says t y t (TBurn a x)).
    rewrite tk_write_at, (bal_same k k0 y B). unfold says, ind. rewrite Z.eqb_refl.
    destruct (Z.eqb_spec y a) as [->|]; [rewrite (bal_same k k0 a B)|]; lia.
  - change (tk_supply (tk_write_balance a (tk_balance a k0 - x) k0) = tk_supply k + issues t t (TBurn a x)).
    rewrite tk_supply_write, (sup_same k k0 B). unfold issues. rewrite Z.eqb_refl. lia.
Qed.

Lemma lq_mint e c t a x : logs Qtok (l_mint e c t a x).
Proof.
  intros w l u w' l' H.
  assert (T : erases (l_mint e c t a x) (tok_mint e c t a x)) by apply e_mint.
  unfold l_mint in H. apply mbind_ok in H. destruct H as [[] [[w1 l1] [G H]]].
  apply mguard_ok in G. destruct G as [G E]. inversion E; subst w1 l1; clear E.
  apply mbind_ok in H. destruct H as [k [[w2 l2] [K H]]]. apply lf_ok in K. destruct K as [w3 [K E]].
  inversion E; subst w2 l2; clear E.
  pose proof K as K'. apply get_tok_ok in K'. destruct K' as [Ek ->].
  apply mbind_ok in H. destruct H as [[] [[w4 l4] [R H]]]. apply lf_ok in R. destruct R as [w5 [R E]].
  inversion E; subst w4 l4; clear E. pose proof R as R'. apply require_auth_ok in R'. destruct R' as [_ ->].
  apply mbind_ok in H. destruct H as [[] [[w6 l6] [U H]]]. apply lf_ok in U. destruct U as [w7 [U E]].
  inversion E; subst w6 l6; clear E. apply emit_ok in H. inversion H; subst.
  eexists. split; [reflexivity|].
  assert (M : tok_mint e c t a x w = Ok (tt, w7)).
  { unfold tok_mint, mbind. unfold mguard at 1. rewrite G, K, R. exact U. }
  apply tok_mint_ok in M. destruct M as [k' [_ [P [V _]]]].
  eapply tk_upd_Q; [exact V| |].
  - intros y. change (tk_balance y (tk_write_balance a (tk_balance a k' + x) k') = tk_balance y k' + says t y t (TMint (t_admin k) a x)).
    rewrite tk_write_at. unfold says, ind. rewrite Z.eqb_refl. destruct (Z.eqb_spec y a); subst; lia.
  - change (tk_supply (tk_write_balance a (tk_balance a k' + x) k') = tk_supply k' + issues t t (TMint (t_admin k) a x)).
    rewrite tk_supply_write. unfold issues. rewrite Z.eqb_refl. lia.
Qed.

Lemma lq_emit0 c v : (forall t x, says t x c v = 0) -> (forall t, issues t c v = 0) -> logs Qtok (emit c v).
Proof.
  intros A B. apply lg_emit. intros w T. repeat split; auto; intros; simpl; rewrite ?A, ?B; lia.
Qed.
Lemma lq_pub c a b x : logs Qtok (pub c a b x).
Proof. apply lq_emit0; intros; unfold says, issues; now destruct (c =? t). Qed.

(** approve and set_admin: no balance moves *)
Lemma q_upd t f : (forall k k', f k = Ok k' -> t_bal k' = t_bal k) -> safe (fun w w' => Qtok w w' []) (upd_tok t f).
Proof.
  intros F w u w' H T. apply upd_tok_ok in H. destruct H as [k [k' [E [G ->]]]].
  pose proof (F _ _ G) as B.
  repeat split.
  - intros b. simpl. rewrite fget_set. destruct (Z.eqb_spec b t) as [->|]; [|apply T].
    intros _. apply T. congruence.
  - intros b x. unfold bal. simpl. rewrite fget_set. destruct (Z.eqb_spec b t) as [->|]; [|lia].
    rewrite E, (bal_same k k' x B). lia.
  - intros b. unfold supply. simpl. rewrite fget_set. destruct (Z.eqb_spec b t) as [->|]; [|lia].
    rewrite E, (sup_same k k' B). lia.
Qed.
Lemma Qnil_trans x y z : Qtok x y [] -> Qtok y z [] -> Qtok x z [].
Proof. intros X Y. exact (lq_trans _ Qtok_rel _ _ _ _ _ X Y). Qed.
Lemma Qnil_pure {A} (m : ST World A) : pure m -> safe (fun w w' => Qtok w w' []) m.
Proof. intros P w a w' H. rewrite (P _ _ _ H). apply (lq_refl _ Qtok_rel). Qed.

Lemma lq_approve e c t a b x y : logs Qtok (l_approve e c t a b x y).
Proof.
  unfold l_approve. apply (lg_bind _ Qtok_rel).
  - apply lg_lf. unfold tok_approve.
    do 3 (apply (safe_bind _ Qnil_trans); [apply Qnil_pure; auto with pure | intro]).
    apply q_upd. intros k k' H. now apply tk_write_allowance_ok in H.
  - intros _. apply lq_emit0; intros; unfold says, issues; now destruct (t =? t0).
Qed.
Lemma lq_set_admin e c t x : logs Qtok (l_set_admin e c t x).
Proof.
  unfold l_set_admin.
  apply (lg_bind _ Qtok_rel); [apply lg_lf, Qnil_pure; auto with pure | intro k].
  apply (lg_bind _ Qtok_rel); [apply lg_lf, Qnil_pure; auto with pure | intros _].
  apply (lg_bind _ Qtok_rel).
  - apply lg_lf, q_upd. intros k0 k' H. inversion H. reflexivity.
  - intros _. apply lq_emit0; intros; unfold says, issues; now destruct (t =? t0).
Qed.

Ltac qleaf :=
  first [ apply lq_transfer | apply lq_transfer_from | apply lq_mint | apply lq_burn | apply lq_burn_from
        | apply lq_approve | apply lq_set_admin | apply lq_pub | apply lq_deploy_share | apply lq_tok_deploy
        | apply lq_lf; solve [qt]
        | apply lq_emit0; intros; unfold says, issues;
          match goal with |- (if ?b then _ else _) = _ => now destruct b end ].
Ltac lqt := lg Qtok_rel qleaf.

Lemma lq_pay e a b s t x l : logs Qtok (l_pay_rewards e a b s t x l).
Proof. induction l as [|y l IH]; simpl; lqt. exact IH. Qed.
Lemma lq_pool_swap e c a b d x x1 x2 x3 x4 : logs Qtok (l_pool_swap e c a b d x x1 x2 x3 x4).
Proof. unfold l_pool_swap, l_do_swap. lqt. Qed.
Lemma lq_stable_swap e c a b d x x1 x2 x3 x4 : logs Qtok (l_stable_swap e c a b d x x1 x2 x3 x4).
Proof. unfold l_stable_swap, l_stable_do_swap. lqt. Qed.
Lemma lq_any_swap e c a b d x x1 x2 x3 x4 : logs Qtok (l_any_swap e c a b d x x1 x2 x3 x4).
Proof. unfold l_any_swap. lqt; first [apply lq_pool_swap | apply lq_stable_swap]. Qed.
Lemma lq_hop_swaps e a b c x2 x3 x4 l : forall x, logs Qtok (l_hop_swaps e a b c l x x2 x3 x4).
Proof.
  induction l as [|o l IH]; intros x; simpl; lqt; first [apply lq_any_swap | apply IH].
Qed.
Lemma lq_rewards_withdraw e c a b d : logs Qtok (l_rewards_withdraw e c a b d).
Proof. unfold l_rewards_withdraw. lqt. Qed.
Lemma lq_pool_initialize e a i b c d x : logs Qtok (l_pool_initialize e a i b c d x).
Proof. unfold l_pool_initialize, l_deploy_stake_of, l_stake_initialize. lqt. Qed.
Lemma lq_stable_initialize e a i b c d : logs Qtok (l_stable_initialize e a i b c d).
Proof. unfold l_stable_initialize, l_deploy_stake_of, l_stake_initialize. lqt. Qed.

Theorem lexec_Qtok e k : logs Qtok (lexec e k).
Proof.
  destruct k; simpl;
  unfold l_stake_initialize, l_stake_bond, l_stake_unbond, l_stake_create_flow, l_stake_distribute,
    l_stake_withdraw_rewards, l_pool_provide, l_new_share_total, l_mint_shares, l_burn_shares, pub_provide,
    l_pool_withdraw, pub_withdraw, l_stable_provide, l_stable_mint_shares, l_stable_burn_shares, l_stable_withdraw,
    l_rewards_initialize, l_rewards_add_user, l_rewards_bond, l_rewards_unbond, l_rewards_distribute, l_rewards_fund,
    l_vest_initialize, l_vest_create, l_vest_claim, l_vest_burn, l_vest_mint, l_vest_update_minter,
    l_vest_update_capacity, l_hop_initialize, l_fact_initialize, l_fact_create, l_hop_swap, l_trader_initialize,
    l_trader_trade, l_trader_transfer, l_drop;
  lqt;
  first [ apply lq_pool_swap | apply lq_stable_swap | apply lq_hop_swaps | apply lq_any_swap | apply lq_pay
        | apply lq_rewards_withdraw | apply lq_pool_initialize | apply lq_stable_initialize | idtac ].
  all: lqt.
Qed.
