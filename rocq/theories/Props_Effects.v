(** What token metadata and allowances do in every transaction (C151) and the exact effects of the token
    calls (C152). *)
From Coq Require Import ZArith List Bool Lia.
From Coq Require Import ZifyBool.
From Verif Require Import Base FMap Decimal Curve World Token TokenProofs Frame Stake Pool PoolProofs
  Stable StableProofs Rewards Vest Factory Router System SysFrame SysInv SysPool SysStable SysSupply
  Props_Token Props_Pool.
Import ListNotations.
Open Scope Z_scope.

(** ** Admin, decimals and allowances survive every contract function *)
Definition coded (w : World) : Prop := forall t k, fget t (w_tok w) = Some k -> fget t (w_code w) <> None.
Definition Meta (w w' : World) : Prop := coded w -> coded w' /\
  forall t k, fget t (w_tok w) = Some k -> exists k', fget t (w_tok w') = Some k' /\
    t_allow k' = t_allow k /\ t_admin k' = t_admin k /\ t_dec k' = t_dec k.

Lemma meta_refl w : Meta w w.
Proof. intros C. split; [exact C|]. intros t k E. exists k. auto. Qed.
Lemma meta_trans a b c : Meta a b -> Meta b c -> Meta a c.
Proof.
  intros A B C. destruct (A C) as [C1 A1]. destruct (B C1) as [C2 B1]. split; [exact C2|].
  intros t k E. destruct (A1 t k E) as [k1 [E1 [X1 [Y1 Z1]]]]. destruct (B1 t k1 E1) as [k2 [E2 [X2 [Y2 Z2]]]].
  exists k2. split; [exact E2|]. split; [congruence|]. split; congruence.
Qed.
Lemma me_bind {A B} (m : ST World A) (k : A -> ST World B) :
  safe Meta m -> (forall a, safe Meta (k a)) -> safe Meta (mbind m k).
Proof. apply safe_bind. apply meta_trans. Qed.
Lemma me_pure {A} (m : ST World A) : pure m -> safe Meta m.
Proof. apply safe_pure. apply meta_refl. Qed.
Lemma me_mmod (f : World -> World) : (forall w, w_code (f w) = w_code w /\ w_tok (f w) = w_tok w) -> safe Meta (mmod f).
Proof.
  intros E w u w' H. apply mmod_ok in H. inversion H; subst. destruct (E w) as [E1 E2].
  unfold Meta, coded. rewrite E1, E2. intros C. split; [exact C|]. intros t k Q. exists k. auto.
Qed.
Lemma me_upd t f : (forall k k', f k = Ok k' -> t_allow k' = t_allow k /\ t_admin k' = t_admin k /\ t_dec k' = t_dec k) ->
  safe Meta (upd_tok t f).
Proof.
  intros F w u w' H. apply upd_tok_ok in H. destruct H as [k [k' [E [X ->]]]]. intros C. split.
  - intros x kx Ex. simpl in *. rewrite fget_set in Ex. destruct (Z.eqb_spec x t) as [->|]; [apply (C _ _ E)|apply (C _ _ Ex)].
  - intros x kx Ex. simpl. rewrite fget_set. destruct (Z.eqb_spec x t) as [->|]; [|exists kx; auto].
    rewrite E in Ex. inversion Ex; subst. exists k'. split; [reflexivity|]. apply F. exact X.
Qed.
Lemma me_transfer e c t from to amt : safe Meta (tok_transfer e c t from to amt).
Proof.
  unfold tok_transfer. apply me_bind; [apply me_pure; pure_tac|intro]. apply me_bind; [apply me_pure; pure_tac|intro].
  apply me_upd. intros k k' X. rstep X.
  match goal with R : tk_spend _ _ _ = Ok _ |- _ => apply tk_spend_ok in R; destruct R as [-> ?] end.
  match goal with R : tk_receive _ _ _ = Ok _ |- _ => apply tk_receive_ok in R; destruct R as [-> ?] end. auto.
Qed.
Lemma me_mint e c t to amt : safe Meta (tok_mint e c t to amt).
Proof.
  unfold tok_mint. do 3 (apply me_bind; [apply me_pure; pure_tac|intro]).
  apply me_upd. intros k k' X. rstep X.
  match goal with R : tk_receive _ _ _ = Ok _ |- _ => apply tk_receive_ok in R; destruct R as [-> ?] end. auto.
Qed.
Lemma me_burn e c t from amt : safe Meta (tok_burn e c t from amt).
Proof.
  unfold tok_burn. do 2 (apply me_bind; [apply me_pure; pure_tac|intro]).
  apply me_upd. intros k k' X. rstep X.
  match goal with R : tk_spend _ _ _ = Ok _ |- _ => apply tk_spend_ok in R; destruct R as [-> ?] end. auto.
Qed.
Lemma me_deploy a k : safe Meta (deploy a k).
Proof.
  intros w u w' H. apply deploy_ok in H. destruct H as [_ [N ->]]. intros C. split.
  - intros t kt Et. simpl. rewrite fget_set. destruct (Z.eqb_spec t a); [discriminate|]. apply (C _ _ Et).
  - intros t kt Et. exists kt. auto.
Qed.
Lemma me_tok_deploy t a d : safe Meta (tok_deploy t a d).
Proof.
  intros w u w' H. apply tok_deploy_ok in H. destruct H as [_ [_ [N ->]]]. intros C. split.
  - intros x kt Et. simpl in *. rewrite fget_set in Et. rewrite fget_set. destruct (Z.eqb_spec x t); [discriminate|]. apply (C _ _ Et).
  - intros x kt Et. simpl. rewrite fget_set. destruct (Z.eqb_spec x t) as [->|]; [|exists kt; auto].
    exfalso. apply (C _ _ Et). exact N.
Qed.
Ltac me_tac :=
  repeat first
  [ solve [apply me_pure; auto with pure]
  | apply me_transfer | apply me_mint | apply me_burn | apply me_deploy | apply me_tok_deploy
  | apply me_bind; [|intro]
  | solve [apply me_mmod; split; reflexivity]
  | match goal with
    | |- safe _ (let '(_, _) := ?p in _) => destruct p
    | |- safe _ (if ?b then _ else _) => destruct b
    | |- safe _ (mwhen ?b _) => unfold mwhen; destruct b
    | |- safe _ (match ?o with _ => _ end) => destruct o
    end
  | progress unfold
      put_pool, put_stable, put_stake, put_rewards, put_vest, put_fact, put_hop, put_trader, put_wasm,
      mint_shares, burn_shares, new_share_total, do_swap, stable_mint_shares, stable_burn_shares, stable_do_swap,
      pool_provide, pool_swap, pool_withdraw, pool_update_config, pool_update, pool_upgrade, stake_update, rewards_update,
      stable_provide, stable_swap, stable_withdraw, stable_update_config, stable_upgrade,
      stake_initialize, stake_bond, stake_unbond, stake_create_flow, stake_distribute, stake_withdraw_rewards,
      rewards_initialize, rewards_add_user, rewards_bond, rewards_unbond, rewards_distribute, rewards_withdraw,
      rewards_fund, vest_initialize, vest_create, vest_claim, vest_burn, vest_mint, vest_update_minter,
      vest_update_capacity, vest_update, fact_update_whitelist, fact_update_hashes, fact_update, hop_initialize,
      hop_update, trader_initialize, trader_transfer, trader_trade, any_swap, drop,
      pool_initialize, stable_initialize, deploy_share, deploy_stake_of, fact_initialize, fact_create
  | progress cbv beta zeta ].
Lemma me_pay e self u s t b l : safe Meta (pay_rewards e self u s t b l).
Proof. induction l; simpl; me_tac. auto. Qed.
Lemma me_hop_swaps e self f r ops ms dl mf : forall a, safe Meta (hop_swaps e self f r ops a ms dl mf).
Proof.
  induction ops; intros amt; simpl; [me_tac|].
  apply me_bind; [me_tac|intro]. apply me_bind; [me_tac|intro]. auto.
Qed.

(** calls of token contracts that change metadata or allowances *)
Definition meta_call (k : Call) : bool :=
  match k with CSetAdmin _ _ | CApprove _ _ _ _ _ | CTransferFrom _ _ _ _ _ | CBurnFrom _ _ _ _ => true | _ => false end.
Lemma exec_meta e k : meta_call k = false -> safe Meta (exec e k).
Proof.
  intros D. destruct k; try discriminate D; simpl exec; try (me_tac; fail).
  - unfold stake_withdraw_rewards. me_tac. apply me_pay.
  - unfold drop, hop_swap. me_tac. apply me_hop_swaps.
Qed.

(** ** C151 *)
Definition allowance_entry (w : World) (t owner spender : Addr) : option (Z * Z) :=
  match fget t (w_tok w) with
  | Some k => match fget owner (t_allow k) with Some m => fget spender m | None => None end
  | None => None
  end.
(** what the ledger must say after the call, given what it said before *)
Definition entry_after (k : Call) (t owner spender : Addr) (old : option (Z * Z)) : option (Z * Z) :=
  match k with
  | CApprove t' o s amt ex => if (t' =? t) && (o =? owner) && (s =? spender) then Some (amt, ex) else old
  | CTransferFrom t' s o _ amt | CBurnFrom t' s o amt =>
      if (t' =? t) && (o =? owner) && (s =? spender) && (0 <? amt)
      then match old with Some (a, ex) => Some (a - amt, ex) | None => None end else old
  | _ => old
  end.
Definition admin_after (k : Call) (t : Addr) (old : option Addr) : option Addr :=
  match k with CSetAdmin t' new => if t' =? t then Some new else old | _ => old end.

Lemma coded_reach H w : reachable H w -> coded w.
Proof. intros R t k E. rewrite (gd_ctok _ (reach_good _ _ R) _ _ E). discriminate. Qed.
Lemma spend_entry seq f s amt k k' : 0 <= amt -> tk_spend_allowance seq f s amt k = Ok k' ->
  t_admin k' = t_admin k /\ t_dec k' = t_dec k /\
  forall f' s', tk_allow_entry f' s' k' =
    if (f =? f') && (s =? s') && (0 <? amt)
    then match tk_allow_entry f' s' k with Some (a, ex) => Some (a - amt, ex) | None => None end
    else tk_allow_entry f' s' k.
Proof.
  intros P H. apply tk_spend_allowance_ok in H; [|exact P]. cbv zeta in H. destruct H as [L [A [D [_ [_ [_ E]]]]]].
  split; [exact A|]. split; [exact D|]. intros f' s'. rewrite E. clear E. rewrite (Z.eqb_sym f' f), (Z.eqb_sym s' s).
  destruct (Z.eqb_spec f f') as [<-|]; [|reflexivity]. destruct (Z.eqb_spec s s') as [<-|]; [|reflexivity].
  destruct (Z.ltb_spec 0 amt) as [Pa|]; [|reflexivity]. simpl. unfold tk_read_allowance in *.
  destruct (tk_allow_entry f s k) as [[a ex]|]; [|simpl in L; lia].
  destruct (ex <? seq); simpl in *; [lia|reflexivity].
Qed.

Theorem C151_allowances_and_metadata H w e k w' t tk : reachable H w -> exec e k w = Ok (tt, w') ->
  fget t (w_tok w) = Some tk ->
  (forall owner spender, allowance_entry w' t owner spender =
     entry_after k t owner spender (allowance_entry w t owner spender)) /\
  tadmin w' t = admin_after k t (tadmin w t) /\ tdec w' t = tdec w t.
Proof.
  intros R X Et. pose proof (coded_reach _ _ R) as C.
  destruct (meta_call k) eqn:D.
  - destruct k; try discriminate D; simpl in X.
    + apply tok_set_admin_ok in X. destruct X as [k0 [_ [E ->]]]. 
      unfold allowance_entry, tadmin, tdec, admin_after, entry_after. simpl w_tok.
      rewrite fget_set, Et. rewrite (Z.eqb_sym t0 t). destruct (Z.eqb_spec t t0) as [<-|].
      * rewrite E in Et. inversion Et; subst k0. auto.
      * auto.
    + apply tok_approve_ok in X. destruct X as [_ [_ [k0 [k1 [W [E ->]]]]]].
      apply tk_write_allowance_ok in W. destruct W as [_ [A [Dk [_ [_ [_ En]]]]]].
      unfold allowance_entry, tadmin, tdec, admin_after, entry_after. simpl w_tok.
      rewrite fget_set, Et. rewrite (Z.eqb_sym t0 t). destruct (Z.eqb_spec t t0) as [<-|].
      * rewrite E in Et. inversion Et; subst k0. split; [|rewrite A, Dk; auto].
        intros o s. specialize (En o s). unfold tk_allow_entry in En. rewrite En.
        rewrite (Z.eqb_sym from o), (Z.eqb_sym sp s). reflexivity.
      * auto.
    + apply tok_transfer_from_ok in X. destruct X as [_ [P [k0 [k1 [k2 [S [T [Al [E ->]]]]]]]]].
      apply spend_entry in S; [|exact P]. destruct S as [A [Dk En]].
      unfold allowance_entry, tadmin, tdec, admin_after, entry_after. simpl w_tok.
      rewrite fget_set, Et. rewrite (Z.eqb_sym t0 t). destruct (Z.eqb_spec t t0) as [<-|].
      * rewrite E in Et. inversion Et; subst k0. split; [|rewrite (te_adm _ _ _ _ _ T), (te_dec _ _ _ _ _ T), A, Dk; auto].
        intros o s. specialize (En o s). unfold tk_allow_entry in En. rewrite Al, En. reflexivity.
      * auto.
    + apply tok_burn_from_ok in X. destruct X as [_ [P [k0 [k1 [S [_ [E ->]]]]]]].
      apply spend_entry in S; [|exact P]. destruct S as [A [Dk En]].
      unfold allowance_entry, tadmin, tdec, admin_after, entry_after. simpl w_tok.
      rewrite fget_set, Et. rewrite (Z.eqb_sym t0 t). destruct (Z.eqb_spec t t0) as [<-|].
      * rewrite E in Et. inversion Et; subst k0. split; [|simpl; rewrite A, Dk; auto].
        intros o s. specialize (En o s). unfold tk_allow_entry in En. simpl t_allow. rewrite En. reflexivity.
      * auto.
  - destruct (exec_meta e k D w tt w' X C) as [_ M]. destruct (M t tk Et) as [tk' [E' [A1 [A2 A3]]]].
    unfold allowance_entry, tadmin, tdec. rewrite E', Et, A1, A2, A3.
    destruct k; try discriminate D; auto.
Qed.
Print Assumptions C151_allowances_and_metadata.

(** ** C152: what the token calls do, completely *)
(** the token a call addresses, and the units it is to take from, give to, create and destroy *)
Definition token_of (k : Call) : option Addr :=
  match k with
  | CMint t _ _ | CSetAdmin t _ | CApprove t _ _ _ _ | CTransfer t _ _ _ | CTransferFrom t _ _ _ _
  | CBurn t _ _ | CBurnFrom t _ _ _ => Some t
  | _ => None
  end.
Definition taken (k : Call) (a : Addr) : Z :=
  match k with
  | CTransfer _ from _ amt | CTransferFrom _ _ from _ amt | CBurn _ from amt | CBurnFrom _ _ from amt =>
      if a =? from then amt else 0
  | _ => 0
  end.
Definition given (k : Call) (a : Addr) : Z :=
  match k with
  | CTransfer _ _ to amt | CTransferFrom _ _ _ to amt | CMint _ to amt => if a =? to then amt else 0
  | _ => 0
  end.
Definition created (k : Call) : Z := match k with CMint _ _ amt => amt | _ => 0 end.
Definition destroyed (k : Call) : Z := match k with CBurn _ _ amt | CBurnFrom _ _ _ amt => amt | _ => 0 end.

Lemma bal_mint a x k : tk_balance a (tk_log_mint x k) = tk_balance a k.
Proof. reflexivity. Qed.
Lemma bal_burn a x k : tk_balance a (tk_log_burn x k) = tk_balance a k.
Proof. reflexivity. Qed.
Lemma sup_mint x k : tk_supply (tk_log_mint x k) = tk_supply k.
Proof. reflexivity. Qed.
Lemma sup_burn x k : tk_supply (tk_log_burn x k) = tk_supply k.
Proof. reflexivity. Qed.
Lemma sup_admin x k : tk_supply (tk_set_admin x k) = tk_supply k.
Proof. reflexivity. Qed.
Local Ltac sup_tac := rewrite ?sup_mint, ?sup_burn, ?sup_admin, ?tk_supply_write.

Theorem C152_token_call_effects H w e k w' t : reachable H w -> token_of k = Some t -> exec e k w = Ok (tt, w') ->
  w' = set_tok w (w_tok w') /\
  (forall x, x <> t -> fget x (w_tok w') = fget x (w_tok w)) /\
  (forall a, bal w' t a = bal w t a - taken k a + given k a) /\
  supply w' t = supply w t + created k - destroyed k.
Proof.
  intros R T X. destruct k; try discriminate T; simpl in T, X; inversion T; subst; clear T; unfold taken, given, created, destroyed.
  - apply tok_mint_ok in X. destruct X as [k0 [_ [P [U _]]]]. pose proof U as [E Ew]. split; [rewrite Ew; reflexivity|].
    split; [intros x Nx; rewrite Ew; simpl; rewrite fget_set; destruct (Z.eqb_spec x t); [congruence|reflexivity]|].
    split; [intros a; rewrite (bal_upd _ _ _ _ _ _ _ U), Z.eqb_refl, (bal_get _ _ _ _ E)|
            rewrite (supply_upd _ _ _ _ _ _ U), Z.eqb_refl; unfold supply; rewrite E; sup_tac; lia].
    rewrite bal_mint, tk_balance_write. destruct (a =? to) eqn:Q; [|lia].
    apply Z.eqb_eq in Q. subst. lia.
  - apply tok_set_admin_ok in X. destruct X as [k0 [_ U]]. pose proof U as [E Ew]. split; [rewrite Ew; reflexivity|].
    split; [intros x Nx; rewrite Ew; simpl; rewrite fget_set; destruct (Z.eqb_spec x t); [congruence|reflexivity]|].
    split; [intros a'; rewrite (bal_upd _ _ _ _ _ _ _ U), Z.eqb_refl, (bal_get _ _ _ _ E)|
            rewrite (supply_upd _ _ _ _ _ _ U), Z.eqb_refl; unfold supply; rewrite E; sup_tac; lia].
    unfold tk_balance, tk_set_admin; simpl. lia.
  - apply tok_approve_ok in X. destruct X as [_ [_ [k0 [k1 [W U]]]]]. pose proof U as [E Ew].
    apply tk_write_allowance_ok in W. destruct W as [_ [_ [_ [B [M1 [M2 _]]]]]]. split; [rewrite Ew; reflexivity|].
    split; [intros x Nx; rewrite Ew; simpl; rewrite fget_set; destruct (Z.eqb_spec x t); [congruence|reflexivity]|].
    split; [intros a'; rewrite (bal_upd _ _ _ _ _ _ _ U), Z.eqb_refl, (bal_get _ _ _ _ E)|
            rewrite (supply_upd _ _ _ _ _ _ U), Z.eqb_refl; unfold supply; rewrite E; unfold tk_supply; rewrite B; lia].
    unfold tk_balance; rewrite B. lia.
  - pose proof X as X0. apply tok_transfer_ok in X0. destruct X0 as [_ [k0 [k1 [U [T _]]]]]. pose proof U as [E Ew].
    split; [rewrite Ew; reflexivity|].
    split; [intros x Nx; rewrite Ew; simpl; rewrite fget_set; destruct (Z.eqb_spec x t); [congruence|reflexivity]|].
    split; [intros a'; rewrite (bal_upd _ _ _ _ _ _ _ U), Z.eqb_refl, (bal_get _ _ _ _ E), (te_bal _ _ _ _ _ T); reflexivity|].
    rewrite (supply_upd _ _ _ _ _ _ U), Z.eqb_refl; unfold supply; rewrite E, (te_sup _ _ _ _ _ T). lia.
  - apply tok_transfer_from_ok in X. destruct X as [_ [P [k0 [k1 [k2 [S [T [Al U]]]]]]]]. pose proof U as [E Ew].
    apply tk_spend_allowance_ok in S; [|exact P]. destruct S as [_ [_ [_ [B _]]]].
    split; [rewrite Ew; reflexivity|].
    split; [intros x Nx; rewrite Ew; simpl; rewrite fget_set; destruct (Z.eqb_spec x t); [congruence|reflexivity]|].
    split; [intros a'; rewrite (bal_upd _ _ _ _ _ _ _ U), Z.eqb_refl, (bal_get _ _ _ _ E), (te_bal _ _ _ _ _ T); unfold tk_balance; rewrite B; reflexivity|].
    rewrite (supply_upd _ _ _ _ _ _ U), Z.eqb_refl; unfold supply; rewrite E, (te_sup _ _ _ _ _ T); unfold tk_supply; rewrite B. lia.
  - apply tok_burn_ok in X. destruct X as [_ [P [k0 [U _]]]]. pose proof U as [E Ew]. split; [rewrite Ew; reflexivity|].
    split; [intros x Nx; rewrite Ew; simpl; rewrite fget_set; destruct (Z.eqb_spec x t); [congruence|reflexivity]|].
    split; [intros a; rewrite (bal_upd _ _ _ _ _ _ _ U), Z.eqb_refl, (bal_get _ _ _ _ E)|
            rewrite (supply_upd _ _ _ _ _ _ U), Z.eqb_refl; unfold supply; rewrite E; sup_tac; lia].
    rewrite bal_burn, tk_balance_write. destruct (a =? from) eqn:Q; [|lia].
    apply Z.eqb_eq in Q. subst. lia.
  - apply tok_burn_from_ok in X. destruct X as [_ [P [k0 [k1 [S [_ U]]]]]]. pose proof U as [E Ew].
    apply tk_spend_allowance_ok in S; [|exact P]. destruct S as [_ [_ [_ [B [M1 [M2 _]]]]]].
    split; [rewrite Ew; reflexivity|].
    split; [intros x Nx; rewrite Ew; simpl; rewrite fget_set; destruct (Z.eqb_spec x t); [congruence|reflexivity]|].
    split; [intros a; rewrite (bal_upd _ _ _ _ _ _ _ U), Z.eqb_refl, (bal_get _ _ _ _ E)|
            rewrite (supply_upd _ _ _ _ _ _ U), Z.eqb_refl; unfold supply; rewrite E; sup_tac; unfold tk_balance, tk_supply; rewrite B; lia].
    rewrite bal_burn, tk_balance_write. unfold tk_balance. rewrite B. destruct (a =? from) eqn:Q; [|lia].
    apply Z.eqb_eq in Q. subst. lia.
Qed.
Print Assumptions C152_token_call_effects.
