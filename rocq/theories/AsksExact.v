(** The signatures demanded by each call, in order, read off the model. *)
From Coq Require Import ZArith List Bool Lia.
From Coq Require Import ZifyBool.
From Verif Require Import Base FMap Decimal Curve World Token Stake Pool Stable Rewards Vest Factory Router System
  TokenProofs PoolProofs StableProofs Frame SysFrame Asks AsksErase.
Import ListNotations.
Open Scope list_scope.
Open Scope Z_scope.

(** ** What [aexec] does, [exec] does, and the other way round *)
Lemma aexec_exec e k w w' D : aexec e k (w, []) = Ok (tt, (w', D)) -> exec e k w = Ok (tt, w').
Proof.
  intros H. pose proof (aexec_asks e e k eq_refl w []) as E.
  destruct (exec e k w) as [[u w1]|x].
  - destruct E as [D' [E _]]. rewrite H in E. inversion E. now destruct u.
  - rewrite H in E. discriminate.
Qed.
Lemma exec_aexec e k w w' : exec e k w = Ok (tt, w') -> exists D, aexec e k (w, []) = Ok (tt, (w', D)).
Proof.
  intros H. pose proof (aexec_asks e e k eq_refl w []) as E. rewrite H in E.
  destruct E as [D [E _]]. exists D. exact E.
Qed.

Definition asked (c : option Addr) (a : Addr) (k : Call) : list Ask := if invoker c a then [] else [mkAsk a c k].
Lemma asked_root a k : asked None a k = [mkAsk a None k].
Proof. reflexivity. Qed.
Lemma asked_self a k : asked (Some a) a k = [].
Proof. unfold asked, invoker. now rewrite Z.eqb_refl. Qed.
Lemma asked_of a s k : a <> s -> asked (Some s) a k = [mkAsk a (Some s) k].
Proof. unfold asked, invoker. intros N. destruct (Z.eqb_spec s a); congruence. Qed.

Lemma af_ok {A} (m : ST World A) w l a s : af m (w, l) = Ok (a, s) -> exists w', m w = Ok (a, w') /\ s = (w', l).
Proof. unfold af. simpl. destruct (m w) as [[b w1]|]; intros H; inversion H; eauto. Qed.
Lemma ask_ok e c a k w l u s : ask e c a k (w, l) = Ok (u, s) -> authed e c a = true /\ s = (w, l ++ asked c a k).
Proof.
  unfold ask. intros H. apply mbind_ok in H. destruct H as [[] [[w1 l1] [M K]]].
  apply af_ok in M. destruct M as [w2 [M X]]. inversion X; subst. apply require_auth_ok in M. destruct M as [M ->].
  unfold note in K. simpl in K. inversion K; subst. auto.
Qed.

(** ** Token calls *)
Lemma ax_transfer e c t a b x w l u s : a_transfer e c t a b x (w, l) = Ok (u, s) ->
  exists w', tok_transfer e c t a b x w = Ok (tt, w') /\ s = (w', l ++ asked c a (CTransfer t a b x)).
Proof.
  unfold a_transfer. intros H. apply mbind_ok in H. destruct H as [[] [[w1 l1] [M K]]].
  apply ask_ok in M. destruct M as [Au X]. inversion X; subst w1 l1; clear X.
  apply mbind_ok in K. destruct K as [[] [[w1 l1] [G K]]]. apply mguard_ok in G. destruct G as [G X]. inversion X; subst w1 l1; clear X.
  apply af_ok in K. destruct K as [w2 [K ->]]. destruct u. exists w2. split; [|auto].
  unfold tok_transfer, mbind. unfold require_auth, mguard at 1. rewrite Au. unfold mguard. rewrite G. exact K.
Qed.
Lemma ax_burn e c t a x w l u s : a_burn e c t a x (w, l) = Ok (u, s) ->
  exists w', tok_burn e c t a x w = Ok (tt, w') /\ s = (w', l ++ asked c a (CBurn t a x)).
Proof.
  unfold a_burn. intros H. apply mbind_ok in H. destruct H as [[] [[w1 l1] [M K]]].
  apply ask_ok in M. destruct M as [Au X]. inversion X; subst w1 l1; clear X.
  apply mbind_ok in K. destruct K as [[] [[w1 l1] [G K]]]. apply mguard_ok in G. destruct G as [G X]. inversion X; subst w1 l1; clear X.
  apply af_ok in K. destruct K as [w2 [K ->]]. destruct u. exists w2. split; [|auto].
  unfold tok_burn, mbind. unfold require_auth, mguard at 1. rewrite Au. unfold mguard. rewrite G. exact K.
Qed.
Lemma ax_mint e c t a x w l u s : a_mint e c t a x (w, l) = Ok (u, s) ->
  exists k w', fget t (w_tok w) = Some k /\ tok_mint e c t a x w = Ok (tt, w') /\
    s = (w', l ++ asked c (t_admin k) (CMint t a x)).
Proof.
  unfold a_mint. intros H. apply mbind_ok in H. destruct H as [[] [[w1 l1] [G H]]].
  apply mguard_ok in G. destruct G as [G E]. inversion E; subst w1 l1; clear E.
  apply mbind_ok in H. destruct H as [k [[w2 l2] [K H]]]. apply af_ok in K. destruct K as [w3 [K E]].
  inversion E; subst w2 l2; clear E. pose proof K as K'. apply get_tok_ok in K'. destruct K' as [Ek ->].
  apply mbind_ok in H. destruct H as [[] [[w4 l4] [R H]]]. apply ask_ok in R. destruct R as [R E].
  inversion E; subst w4 l4; clear E. apply af_ok in H. destruct H as [w7 [U ->]]. destruct u. exists k, w7.
  split; [auto|]. split; [|auto]. unfold tok_mint, mbind. unfold mguard at 1. rewrite G, K.
  unfold require_auth, mguard. rewrite R. exact U.
Qed.

(** ** Taking a computation apart; steps that only read the ledger are resolved at once *)
Ltac aone M :=
  lazymatch type of M with
  | af _ _ = _ => let E := fresh "Eq" in let w := fresh "w" in
      apply af_ok in M; destruct M as [w [M E]]; inversion E; clear E; subst;
      try (first [apply get_pool_ok in M | apply get_stable_ok in M | apply get_stake_ok in M | apply get_rewards_ok in M
                 | apply get_vest_ok in M | apply get_fact_ok in M | apply get_hop_ok in M | apply get_trader_ok in M
                 | apply get_tok_ok in M | apply enter_ok in M | apply now_ok in M | apply check_deadline_ok in M ];
           let X := fresh "X" in destruct M as [M X]; subst);
      try (apply tok_balance_ok in M; let X := fresh "X" in destruct M as [X [M _]]; subst);
      try (apply tok_decimals_ok in M; let X := fresh "X" in destruct M as [X M]; subst)
  | ask _ _ _ _ _ = _ => let E := fresh "Eq" in apply ask_ok in M; destruct M as [M E]; inversion E; clear E; subst
  | mguard _ _ _ = _ => let E := fresh "Eq" in apply mguard_ok in M; destruct M as [M E]; inversion E; clear E; subst
  | mlift _ _ = _ => let E := fresh "Eq" in let a := fresh "a" in apply mlift_ok in M; destruct M as [a [M E]]; inversion E; clear E; subst
  | mret _ _ = _ => inversion M; clear M; subst
  | a_transfer _ _ _ _ _ _ _ = _ => let E := fresh "Eq" in let w := fresh "w" in
      apply ax_transfer in M; destruct M as [w [M E]]; inversion E; clear E; subst
  | a_burn _ _ _ _ _ _ = _ => let E := fresh "Eq" in let w := fresh "w" in
      apply ax_burn in M; destruct M as [w [M E]]; inversion E; clear E; subst
  | a_mint _ _ _ _ _ _ = _ => let E := fresh "Eq" in let w := fresh "w" in let k := fresh "k" in let K := fresh "K" in
      apply ax_mint in M; destruct M as [k [w [K [M E]]]]; inversion E; clear E; subst
  | _ => idtac
  end.
Ltac ainv H :=
  repeat lazymatch type of H with
  | mbind _ _ _ = Ok _ => let a := fresh "a" in let w := fresh "w" in let l := fresh "l" in let M := fresh "M" in
      apply mbind_ok in H; destruct H as [a [[w l] [M H]]]; aone M
  | (let '(_, _) := ?p in _) _ = Ok _ => let a := fresh "a" in let b := fresh "b" in let E := fresh "Eq" in
      destruct p as [a b] eqn:E; cbv beta iota zeta in H
  | _ => aone H
  end.
(** the list of demands in normal form *)
Ltac alist := simpl snd; rewrite ?asked_self; rewrite <- ?app_assoc; rewrite ?app_nil_r; try reflexivity.

(** ** Swaps, deposits, withdrawals *)
Definition moving (self u : Addr) (frame : Call) (c : option Addr) (l : list (Addr * Z)) : list Ask :=
  asked c u frame ++ flat_map (fun x => asked (Some self) u (CTransfer (fst x) u self (snd x))) l.

Lemma ax_pool_swap e c self u offer amt mi ms dl mf w l ret s :
  a_pool_swap e c self u offer amt mi ms dl mf (w, l) = Ok (ret, s) ->
  snd s = l ++ moving self u (CPoolSwap self u offer amt mi ms dl mf) c [(offer, amt)].
Proof.
  unfold a_pool_swap, a_do_swap. intros H. ainv H.
  match goal with K : fget self (w_pool _) = Some ?q |- _ => rename q into p end.
  destruct (Z.eqb_spec offer (p_ta p)) as [Q|Q]; repeat match goal with K : (_, _) = (_, _) |- _ => inversion K; subst; clear K end.
  - alist. unfold moving. simpl. rewrite app_nil_r. reflexivity.
  - assert (E : offer = p_tb p) by lia. rewrite <- E. alist. unfold moving. simpl. rewrite app_nil_r. reflexivity.
Qed.
Lemma ax_stable_swap e c self u offer amt mi ms dl mf w l ret s :
  a_stable_swap e c self u offer amt mi ms dl mf (w, l) = Ok (ret, s) ->
  snd s = l ++ moving self u (CStableSwap self u offer amt mi ms dl mf) c [(offer, amt)].
Proof.
  unfold a_stable_swap, a_stable_do_swap. intros H. ainv H.
  match goal with K : fget self (w_stable _) = Some ?q |- _ => rename q into p end.
  destruct (Z.eqb_spec offer (l_ta p)) as [Q|Q]; repeat match goal with K : (_, _) = (_, _) |- _ => inversion K; subst; clear K end.
  - alist. unfold moving. simpl. rewrite app_nil_r. reflexivity.
  - assert (E : offer = l_tb p) by lia. rewrite <- E. alist. unfold moving. simpl. rewrite app_nil_r. reflexivity.
Qed.

Lemma ax_pool_withdraw e c self u sh m1 m2 dl w l r s :
  a_pool_withdraw e c self u sh m1 m2 dl (w, l) = Ok (r, s) ->
  exists p, fget self (w_pool w) = Some p /\
    snd s = l ++ moving self u (CPoolWithdraw self u sh m1 m2 dl) c [(p_share p, sh)].
Proof.
  unfold a_pool_withdraw, a_burn_shares. intros H. ainv H.
  repeat match goal with K : mbind _ _ _ = Ok _ |- _ => ainv K end.
  eexists. split; [eassumption|]. alist. unfold moving. simpl. rewrite app_nil_r. reflexivity.
Qed.
Lemma ax_stable_withdraw e c self u sh m1 m2 dl w l r s :
  a_stable_withdraw e c self u sh m1 m2 dl (w, l) = Ok (r, s) ->
  exists p, fget self (w_stable w) = Some p /\
    snd s = l ++ moving self u (CStableWithdraw self u sh m1 m2 dl) c [(l_share p, sh)].
Proof.
  unfold a_stable_withdraw, a_stable_burn_shares. intros H. ainv H.
  repeat match goal with K : mbind _ _ _ = Ok _ |- _ => ainv K end.
  eexists. split; [eassumption|]. alist. unfold moving. simpl. rewrite app_nil_r. reflexivity.
Qed.

Lemma ax_mint_shares e self to amt w l u s p : a_mint_shares e self to amt (w, l) = Ok (u, s) ->
  fget self (w_pool w) = Some p -> tadmin w (p_share p) = Some self ->
  exists w' t, s = (w', l) /\ fget self (w_pool w') = Some (set_p_total p t) /\ tadmin w' (p_share p) = Some self.
Proof.
  unfold a_mint_shares. intros H Ep Ad. ainv H.
  match goal with K : fget self (w_pool w) = Some ?q |- _ => assert (q = p) by congruence; subst q end.
  match goal with K : fget (p_share p) (w_tok w) = Some ?q |- _ => assert (Q : t_admin q = self) by (unfold tadmin in Ad; rewrite K in Ad; congruence); rewrite Q, asked_self, app_nil_r end.
  match goal with K : put_pool _ _ _ = Ok _ |- _ => inversion K; subst; clear K end.
  match goal with K : tok_mint _ _ _ _ _ _ = Ok _ |- _ => apply tok_mint_minted in K; destruct K as [_ Mi] end.
  do 2 eexists. split; [reflexivity|]. split; [simpl; apply fget_set_same|].
  rewrite <- Ad, <- (mt_adm _ _ _ _ _ Mi). reflexivity.
Qed.
Lemma ax_stable_mint_shares e self to amt w l u s p : a_stable_mint_shares e self to amt (w, l) = Ok (u, s) ->
  fget self (w_stable w) = Some p -> tadmin w (l_share p) = Some self -> exists w', s = (w', l).
Proof.
  unfold a_stable_mint_shares. intros H Ep Ad. ainv H.
  match goal with K : fget self (w_stable w) = Some ?q |- _ => assert (q = p) by congruence; subst q end.
  match goal with K : fget (l_share p) (w_tok w) = Some ?q |- _ => assert (Q : t_admin q = self) by (unfold tadmin in Ad; rewrite K in Ad; congruence); rewrite Q, asked_self, app_nil_r end.
  eexists. reflexivity.
Qed.

Lemma ax_two e c ta tb u self a b w w1 w2 :
  tok_transfer e c ta u self a w = Ok (tt, w1) -> tok_transfer e c tb u self b w1 = Ok (tt, w2) ->
  (forall t, tadmin w2 t = tadmin w t) /\ w_pool w2 = w_pool w /\ w_stable w2 = w_stable w.
Proof.
  intros M1 M2. apply tok_transfer_moved in M1, M2. destruct M1 as [_ M1]. destruct M2 as [_ M2].
  split; [intros t; now rewrite (mv_adm _ _ _ _ _ _ M2), (mv_adm _ _ _ _ _ _ M1)|].
  rewrite (mv_rest _ _ _ _ _ _ M2), (mv_rest _ _ _ _ _ _ M1). auto.
Qed.

Lemma ax_pool_provide e c self u da mina db minb custom dl w l s p :
  a_pool_provide e c self u da mina db minb custom dl (w, l) = Ok (tt, s) ->
  fget self (w_pool w) = Some p -> tadmin w (p_share p) = Some self ->
  exists xa xb a b, da = Some xa /\ db = Some xb /\
    deposit_amounts xa mina xb minb (p_ra p) (p_rb p) (dec_bps (match custom with Some s => s | None => p_defslip p end)) = Ok (a, b) /\
    snd s = l ++ moving self u (CPoolProvide self u da mina db minb custom dl) c [(p_ta p, a); (p_tb p, b)].
Proof.
  unfold a_pool_provide, a_new_share_total. intros H Ep Ad. ainv H.
  match goal with K : fget self (w_pool w) = Some ?q |- _ => assert (q = p) by congruence; subst q end.
  match goal with K : match da with Some _ => _ | None => _ end = Ok _ |- _ => rename K into Am end.
  destruct da as [xa|]; [|discriminate]. destruct db as [xb|]; [|discriminate].
  destruct ((0 <? xa) && (0 <? xb)); [|discriminate].
  match type of Am with _ = Ok (?a, ?b) => exists xa, xb, a, b end.
  split; [auto|]. split; [auto|]. split; [exact Am|].
  match goal with K1 : tok_transfer _ _ (p_ta p) _ _ _ _ = _, K2 : tok_transfer _ _ (p_tb p) _ _ _ _ = Ok (tt, ?v) |- _ =>
    destruct (ax_two _ _ _ _ _ _ _ _ _ _ _ K1 K2) as [Ta [Po _]]; rename v into wt end.
  match goal with K : a_mint_shares _ _ u ?n _ = _ |- _ => rename K into Mn end.
  assert (Et : fget self (w_pool wt) = Some p) by congruence. rewrite <- (Ta (p_share p)) in Ad.
  match goal with K : (if _ then _ else _) _ = Ok _ |- _ => rename K into Br end.
  destruct ((0 <? p_ra p) && (0 <? p_rb p)); ainv Br.
  - destruct (ax_mint_shares _ _ _ _ _ _ _ _ _ Mn Et Ad) as [w9 [tt9 [E9 _]]]. inversion E9; subst.
    alist. unfold moving. simpl. rewrite app_nil_r. reflexivity.
  - match goal with K : a_mint_shares _ _ self ?n _ = _ |- _ => rename K into Mz end.
    destruct (ax_mint_shares _ _ _ _ _ _ _ _ _ Mz Et Ad) as [w9 [t9 [E9 [P9 A9]]]]. inversion E9; subst.
    destruct (ax_mint_shares _ _ _ _ _ _ _ _ _ Mn P9 A9) as [w8 [t8 [E8 _]]]. inversion E8; subst.
    alist. unfold moving. simpl. rewrite app_nil_r. reflexivity.
Qed.
Lemma ax_stable_provide e c self u da db custom dl ms w l s p :
  a_stable_provide e c self u da db custom dl ms (w, l) = Ok (tt, s) ->
  fget self (w_stable w) = Some p -> tadmin w (l_share p) = Some self ->
  snd s = l ++ moving self u (CStableProvide self u da db custom dl ms) c [(l_ta p, da); (l_tb p, db)].
Proof.
  unfold a_stable_provide. intros H Ep Ad. ainv H.
  match goal with K : fget self (w_stable w) = Some ?q |- _ => assert (q = p) by congruence; subst q end.
  match goal with K1 : tok_transfer _ _ (l_ta p) _ _ _ _ = _, K2 : tok_transfer _ _ (l_tb p) _ _ _ _ = Ok (tt, ?v) |- _ =>
    destruct (ax_two _ _ _ _ _ _ _ _ _ _ _ K1 K2) as [Ta [_ Po]]; rename v into wt end.
  match goal with K : a_stable_mint_shares _ _ u ?n _ = _ |- _ => rename K into Mn end.
  assert (Et : fget self (w_stable wt) = Some p) by congruence. rewrite <- (Ta (l_share p)) in Ad.
  destruct (ax_stable_mint_shares _ _ _ _ _ _ _ _ p Mn Et Ad) as [w9 E9]. inversion E9; subst.
  alist. unfold moving. simpl. rewrite app_nil_r. reflexivity.
Qed.

(** ** Staking *)
Lemma ax_bond e c self u amt w l s : a_stake_bond e c self u amt (w, l) = Ok (tt, s) ->
  exists k, fget self (w_stake w) = Some k /\ snd s = l ++ moving self u (CBond self u amt) c [(s_lp k, amt)].
Proof.
  unfold a_stake_bond. intros H. ainv H. eexists. split; [eassumption|]. alist. unfold moving. simpl. rewrite app_nil_r. reflexivity.
Qed.
Lemma ax_unbond e c self u amt ts w l s : a_stake_unbond e c self u amt ts (w, l) = Ok (tt, s) ->
  snd s = l ++ moving self u (CUnbond self u amt ts) c [].
Proof. unfold a_stake_unbond. intros H. ainv H. alist. unfold moving. simpl. rewrite app_nil_r. reflexivity. Qed.
Lemma ax_flow e c self u a w l s : a_stake_create_flow e c self u a (w, l) = Ok (tt, s) ->
  snd s = l ++ moving self u (CFlow self u a) c [].
Proof. unfold a_stake_create_flow. intros H. ainv H. alist. unfold moving. simpl. rewrite app_nil_r. reflexivity. Qed.
Lemma ax_distribute e c self u amt a w l s : a_stake_distribute e c self u amt a (w, l) = Ok (tt, s) ->
  snd s = l ++ moving self u (CDistribute self u amt a) c [(a, amt)].
Proof. unfold a_stake_distribute. intros H. ainv H. alist. unfold moving. simpl. rewrite app_nil_r. reflexivity. Qed.
Lemma ax_pay e self u k t assets : forall w l s, a_pay_rewards e self u k t (s_user k u) assets (w, l) = Ok (tt, s) -> snd s = l.
Proof.
  induction assets as [|a tl IH]; intros w l s H; simpl in H.
  - inversion H; subst. reflexivity.
  - ainv H. apply IH in H. rewrite H, asked_self, app_nil_r. reflexivity.
Qed.
Lemma ax_withdraw_rewards e self u w l s : a_stake_withdraw_rewards e self u (w, l) = Ok (tt, s) -> snd s = l.
Proof.
  unfold a_stake_withdraw_rewards. intros H. ainv H.
  match goal with K : a_pay_rewards _ _ _ _ _ _ _ _ = Ok (?x, _) |- _ => destruct x; apply ax_pay in K; simpl snd in *; congruence end.
Qed.

(** ** Stake rewards *)
Lemma ax_rewards_withdraw fr e c self u b w l s : a_rewards_withdraw fr e c self u b (w, l) = Ok (tt, s) ->
  exists r, fget self (w_rewards w) = Some r /\ snd s = l ++ asked c (r_staking r) fr.
Proof.
  unfold a_rewards_withdraw. intros H. ainv H.
  match goal with K : reward_now _ _ _ _ = Ok ?x |- _ => rename x into amt end.
  eexists. split; [eassumption|]. destruct (amt =? 0); ainv H; alist.
Qed.
Lemma ax_rewards_distribute e c self x w l s : a_rewards_distribute e c self x (w, l) = Ok (tt, s) ->
  exists r, fget self (w_rewards w) = Some r /\ snd s = l ++ asked c (r_staking r) (CRewDistribute self x).
Proof.
  unfold a_rewards_distribute. intros H. ainv H. eexists. split; [eassumption|].
  match goal with K : (if ?b then _ else _) _ = _ |- _ => destruct b; ainv K end; alist.
  match goal with K : (if ?b then _ else _) _ = _ |- _ => destruct b; ainv K end; alist.
Qed.
Lemma ax_rewards_fund e c self a b x w l s : a_rewards_fund e c self a b x (w, l) = Ok (tt, s) ->
  exists r, fget self (w_rewards w) = Some r /\
    snd s = l ++ asked c (r_admin r) (CRewFund self a b x) ++ asked c (r_staking r) (CRewFund self a b x) ++
      asked (Some self) (r_admin r) (CTransfer (r_token r) (r_admin r) self x).
Proof. unfold a_rewards_fund. intros H. ainv H. eexists. split; [eassumption|]. alist. Qed.
Lemma ax_rewards_unbond e c self u b x w l s : a_rewards_unbond e c self u b x (w, l) = Ok (tt, s) ->
  exists r n, fget self (w_rewards w) = Some r /\ (n = 1 \/ n = 2)%nat /\
    snd s = l ++ asked c u (CRewUnbond self u b x) ++ concat (repeat (asked c (r_staking r) (CRewUnbond self u b x)) n).
Proof.
  unfold a_rewards_unbond. intros H. ainv H.
  match goal with K : fget self (w_rewards w) = Some ?q |- _ => rename q into r; rename K into Er end.
  exists r. match goal with K : rewards_query _ _ _ _ = Ok _ |- _ => pose proof (pure_rewards_query _ _ _ _ _ _ K) end. subst.
  match goal with K : (if ?t then _ else _) _ = Ok (?y, _) |- _ => destruct y; destruct t; [ainv K; exists 1%nat | exists 2%nat; apply ax_rewards_withdraw in K; destruct K as [r2 [E2 K]]; assert (r2 = r) by congruence; subst r2; simpl in K] end.
  - split; [auto|]. split; [auto|]. alist. simpl. rewrite app_nil_r. reflexivity.
  - split; [auto|]. split; [auto|]. subst. alist. simpl. rewrite app_nil_r. reflexivity.
Qed.

(** ** Vesting *)
Lemma ax_vest_create e c self ls w l s : a_vest_create e c self ls (w, l) = Ok (tt, s) ->
  exists v v' n, fget self (w_vest w) = Some v /\ create_all v ls 0 = Ok (v', n) /\
    snd s = l ++ moving self (v_admin v) (CVestCreate self ls) c [(v_token v, n)].
Proof.
  unfold a_vest_create. intros H. ainv H.
  match goal with K : u2i ?t = Ok ?x |- _ => assert (x = t) by (unfold u2i in K; destruct (I128_MAX <? t); congruence); subst x end.
  do 3 eexists. split; [eassumption|]. split; [eassumption|]. alist. unfold moving. simpl. rewrite app_nil_r. reflexivity.
Qed.
Lemma ax_vest_claim e c self u i w l s : a_vest_claim e c self u i (w, l) = Ok (tt, s) ->
  snd s = l ++ moving self u (CVestClaim self u i) c [].
Proof. unfold a_vest_claim. intros H. ainv H. alist. unfold moving. simpl. rewrite app_nil_r. reflexivity. Qed.
Lemma ax_vest_burn e c self u x w l s : a_vest_burn e c self u x (w, l) = Ok (tt, s) ->
  exists v, fget self (w_vest w) = Some v /\
    snd s = l ++ asked c u (CVestBurn self u x) ++ asked (Some self) u (CBurn (v_token v) u (wrap_i128 x)).
Proof. unfold a_vest_burn. intros H. ainv H. eexists. split; [eassumption|]. alist. Qed.
Lemma ax_vest_mint e c self u x w l s : a_vest_mint e c self u x (w, l) = Ok (tt, s) ->
  exists v k, fget self (w_vest w) = Some v /\ fget (v_token v) (w_tok w) = Some k /\
    snd s = l ++ asked c u (CVestMint self u x) ++ asked (Some self) (t_admin k) (CMint (v_token v) self x).
Proof. unfold a_vest_mint. intros H. ainv H. do 2 eexists. split; [eassumption|]. split; [eassumption|]. alist. Qed.
