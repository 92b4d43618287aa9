(** The events of each call, in order, read off the model. *)
From Coq Require Import ZArith List Bool String Lia.
From Coq Require Import ZifyBool.
From Verif Require Import Base FMap Decimal Curve World Token Stake Pool Stable Rewards Vest Factory Router System
  TokenProofs PoolProofs StableProofs Frame Events EventsErase EventsLog.
Import ListNotations.
Open Scope string_scope.
Open Scope list_scope.
Open Scope Z_scope.

(** ** Token calls *)
Lemma lx_transfer e c t a b x w l u s : l_transfer e c t a b x (w, l) = Ok (u, s) ->
  exists w', tok_transfer e c t a b x w = Ok (tt, w') /\ s = (w', l ++ [(t, TTransfer a b x)]).
Proof.
  unfold l_transfer. intros H. apply mbind_ok in H. destruct H as [[] [[w1 l1] [M K]]].
  apply lf_ok in M. destruct M as [w2 [M X]]. inversion X; subst. apply emit_ok in K. subst. eauto.
Qed.
Lemma lx_transfer_from e c t sp a b x w l u s : l_transfer_from e c t sp a b x (w, l) = Ok (u, s) ->
  exists w', tok_transfer_from e c t sp a b x w = Ok (tt, w') /\ s = (w', l ++ [(t, TTransfer a b x)]).
Proof.
  unfold l_transfer_from. intros H. apply mbind_ok in H. destruct H as [[] [[w1 l1] [M K]]].
  apply lf_ok in M. destruct M as [w2 [M X]]. inversion X; subst. apply emit_ok in K. subst. eauto.
Qed.
Lemma lx_burn e c t a x w l u s : l_burn e c t a x (w, l) = Ok (u, s) ->
  exists w', tok_burn e c t a x w = Ok (tt, w') /\ s = (w', l ++ [(t, TBurn a x)]).
Proof.
  unfold l_burn. intros H. apply mbind_ok in H. destruct H as [[] [[w1 l1] [M K]]].
  apply lf_ok in M. destruct M as [w2 [M X]]. inversion X; subst. apply emit_ok in K. subst. eauto.
Qed.
Lemma lx_mint e c t a x w l u s : l_mint e c t a x (w, l) = Ok (u, s) ->
  exists k w', fget t (w_tok w) = Some k /\ tok_mint e c t a x w = Ok (tt, w') /\
    s = (w', l ++ [(t, TMint (t_admin k) a x)]).
Proof.
  unfold l_mint. intros H. apply mbind_ok in H. destruct H as [[] [[w1 l1] [G H]]].
  apply mguard_ok in G. destruct G as [G E]. inversion E; subst w1 l1; clear E.
  apply mbind_ok in H. destruct H as [k [[w2 l2] [K H]]]. apply lf_ok in K. destruct K as [w3 [K E]].
  inversion E; subst w2 l2; clear E. pose proof K as K'. apply get_tok_ok in K'. destruct K' as [Ek ->].
  apply mbind_ok in H. destruct H as [[] [[w4 l4] [R H]]]. apply lf_ok in R. destruct R as [w5 [R E]].
  inversion E; subst w4 l4; clear E. pose proof R as R'. apply require_auth_ok in R'. destruct R' as [_ ->].
  apply mbind_ok in H. destruct H as [[] [[w6 l6] [U H]]]. apply lf_ok in U. destruct U as [w7 [U E]].
  inversion E; subst w6 l6; clear E. apply emit_ok in H. exists k, w7.
  split; [auto|]. split; [|auto]. unfold tok_mint, mbind. unfold mguard at 1. rewrite G, K, R. exact U.
Qed.

(** ** Taking a computation apart; steps that only read the ledger are resolved at once *)
Ltac lone M :=
  lazymatch type of M with
  | lf _ _ = _ => let E := fresh "Eq" in let w := fresh "w" in
      apply lf_ok in M; destruct M as [w [M E]]; inversion E; clear E; subst;
      try (first [apply get_pool_ok in M | apply get_stable_ok in M | apply get_stake_ok in M | apply get_rewards_ok in M
                 | apply get_vest_ok in M | apply get_fact_ok in M | apply get_hop_ok in M | apply get_trader_ok in M
                 | apply enter_ok in M | apply require_auth_ok in M | apply now_ok in M
                 | apply check_deadline_ok in M ];
           let X := fresh "X" in destruct M as [M X]; subst);
      try (apply tok_balance_ok in M; let X := fresh "X" in destruct M as [X [M _]]; subst);
      try (apply tok_decimals_ok in M; let X := fresh "X" in destruct M as [X M]; subst)
  | mguard _ _ _ = _ => let E := fresh "Eq" in apply mguard_ok in M; destruct M as [M E]; inversion E; clear E; subst
  | mlift _ _ = _ => let E := fresh "Eq" in let a := fresh "a" in apply mlift_ok in M; destruct M as [a [M E]]; inversion E; clear E; subst
  | emit _ _ _ = _ => apply emit_ok in M; inversion M; clear M; subst
  | pub _ _ _ _ _ = _ => apply emit_ok in M; inversion M; clear M; subst
  | mret _ _ = _ => inversion M; clear M; subst
  | l_transfer _ _ _ _ _ _ _ = _ => let E := fresh "Eq" in let w := fresh "w" in
      apply lx_transfer in M; destruct M as [w [M E]]; inversion E; clear E; subst
  | l_burn _ _ _ _ _ _ = _ => let E := fresh "Eq" in let w := fresh "w" in
      apply lx_burn in M; destruct M as [w [M E]]; inversion E; clear E; subst
  | l_mint _ _ _ _ _ _ = _ => let E := fresh "Eq" in let w := fresh "w" in let k := fresh "k" in let K := fresh "K" in
      apply lx_mint in M; destruct M as [k [w [K [M E]]]]; inversion E; clear E; subst
  | _ => idtac
  end.
Ltac linv H :=
  repeat lazymatch type of H with
  | mbind _ _ _ = Ok _ => let a := fresh "a" in let w := fresh "w" in let l := fresh "l" in let M := fresh "M" in
      apply mbind_ok in H; destruct H as [a [[w l] [M H]]]; lone M
  | (let '(_, _) := ?p in _) _ = Ok _ => let a := fresh "a" in let b := fresh "b" in let E := fresh "Eq" in
      destruct p as [a b] eqn:E; cbv beta iota zeta in H
  | _ => lone H
  end.


Lemma got_in e c t u self x w w' : tok_transfer e c t u self x w = Ok (tt, w') -> u <> self ->
  bal w' t self = bal w t self + x.
Proof.
  intros H N. apply tok_transfer_moved in H. destruct H as [_ M].
  rewrite (mv_bal _ _ _ _ _ _ M). unfold ind. rewrite !Z.eqb_refl.
  destruct (Z.eqb_spec self u); [congruence|]. simpl. lia.
Qed.

(** ** Swaps *)
Definition swap_log (self u offer buy rec : Addr) (amt got ret comm spread ref : Z) : Log :=
  [(offer, TTransfer u self amt); (buy, TTransfer self u ret); (buy, TTransfer self rec comm);
   (self, Pub "swap" "sender" (VZ u)); (self, Pub "swap" "sell_token" (VZ offer));
   (self, Pub "swap" "offer_amount" (VZ amt)); (self, Pub "swap" "actual received amount" (VZ got));
   (self, Pub "swap" "buy_token" (VZ buy)); (self, Pub "swap" "return_amount" (VZ ret));
   (self, Pub "swap" "spread_amount" (VZ spread)); (self, Pub "swap" "referral_fee_amount" (VZ ref))].

Lemma lx_pool_swap e c self u offer amt mi ms dl mf w l ret s :
  l_pool_swap e c self u offer amt mi ms dl mf (w, l) = Ok (ret, s) -> u <> self ->
  exists p r, fget self (w_pool w) = Some p /\ (offer = p_ta p \/ offer = p_tb p) /\
    compute_swap (res_of p offer) (res_other p offer) amt (dec_bps (p_fee p)) 0 = Ok r /\ ret = cs_ret r /\
    snd s = l ++ swap_log self u offer (buy_of p offer) (p_feerec p) amt amt (cs_ret r) (cs_comm r) (cs_spread r) (cs_ref r).
Proof.
  unfold l_pool_swap, l_do_swap. intros H N. linv H.
  match goal with K : fget self (w_pool _) = Some ?q |- _ => rename q into p; rename K into Hp end.
  match goal with K : compute_swap _ _ _ _ _ = Ok ?q |- _ => rename q into r; rename K into Hr end.
  exists p, r. split; [auto|]. apply sub_i_ok in M13. rewrite (got_in _ _ _ _ _ _ _ _ M12 N) in M13.
  assert (E : a11 = amt) by lia. subst a11.
  unfold res_of, res_other, buy_of. destruct (Z.eqb_spec offer (p_ta p)) as [Q|Q]; inversion Eq; inversion Eq0; subst.
  - split; [auto|]. split; [auto|]. split; [auto|]. simpl snd. rewrite <- !app_assoc. rewrite <- ?Q. reflexivity.
  - assert (offer = p_tb p) by lia. split; [auto|]. split; [auto|]. split; [auto|].
    simpl snd. rewrite <- !app_assoc. subst offer. reflexivity.
Qed.

Definition stable_swap_log (self u offer buy rec : Addr) (amt ret comm spread : Z) : Log :=
  [(offer, TTransfer u self amt); (buy, TTransfer self u ret); (buy, TTransfer self rec comm);
   (self, Pub "swap" "sender" (VZ u)); (self, Pub "swap" "sell_token" (VZ offer));
   (self, Pub "swap" "offer_amount" (VZ amt));
   (self, Pub "swap" "buy_token" (VZ buy)); (self, Pub "swap" "return_amount" (VZ ret));
   (self, Pub "swap" "spread_amount" (VZ spread))].

Lemma lx_stable_swap e c self u offer amt mi ms dl mf w l ret s :
  l_stable_swap e c self u offer amt mi ms dl mf (w, l) = Ok (ret, s) ->
  exists p us ub ux amp spread comm, fget self (w_stable w) = Some p /\ (offer = l_ta p \/ offer = l_tb p) /\
    i2u (l_res p offer) = Ok us /\ i2u (l_oth p offer) = Ok ub /\ i2u amt = Ok ux /\ amp_of p (w_now w) = Ok amp /\
    stable_compute_swap amp (l_prec p) us (l_pof p offer) ub (l_pot p offer) ux (dec_bps (l_fee p)) = Ok (ret, spread, comm) /\
    snd s = l ++ stable_swap_log self u offer (l_buy p offer) (l_feerec p) amt ret comm spread.
Proof.
  unfold l_stable_swap, l_stable_do_swap. intros H. linv H.
  match goal with K : fget self (w_stable _) = Some ?q |- _ => rename q into p; rename K into Hp end.
  match goal with K : amp_of p _ = Ok ?q |- _ => rename q into amp end.
  match goal with K : stable_compute_swap _ _ ?x _ ?y _ ?z _ = Ok (_, ?sp, ?cm) |- _ => exists p, x, y, z, amp, sp, cm end.
  all: unfold l_res, l_oth, l_pof, l_pot, l_buy; destruct (Z.eqb_spec offer (l_ta p)) as [Q|Q].
  all: repeat match goal with K : (_, _) = (_, _) |- _ => inversion K; subst; clear K end.
  all: repeat (split; [solve [auto | lia | eassumption]|]).
  all: simpl snd; rewrite <- !app_assoc.
  all: first [ reflexivity | assert (Q2 : offer = l_tb p) by lia; rewrite <- Q2; reflexivity ].
Qed.

(** ** Deposits and withdrawals *)
Definition provide_log (self u ta a tb b : Z) : Log :=
  [(self, Pub "provide_liquidity" "sender" (VZ u)); (self, Pub "provide_liquidity" "token_a" (VZ ta));
   (self, Pub "provide_liquidity" "token_a-amount" (VZ a)); (self, Pub "provide_liquidity" "token_b" (VZ tb));
   (self, Pub "provide_liquidity" "token_b-amount" (VZ b))].
Definition withdraw_log (self u share s ta a tb b : Z) : Log :=
  [(share, TTransfer u self s); (share, TBurn self s); (ta, TTransfer self u a); (tb, TTransfer self u b);
   (self, Pub "withdraw_liquidity" "sender" (VZ u)); (self, Pub "withdraw_liquidity" "shares_amount" (VZ s));
   (self, Pub "withdraw_liquidity" "return_amount_a" (VZ a)); (self, Pub "withdraw_liquidity" "return_amount_b" (VZ b))].

Lemma lx_pool_withdraw e c self u sh m1 m2 dl w l r s :
  l_pool_withdraw e c self u sh m1 m2 dl (w, l) = Ok (r, s) ->
  exists p p1 w1, fget self (w_pool w) = Some p /\
    tok_transfer e (Some self) (p_share p) u self sh w = Ok (tt, w1) /\ fget self (w_pool w1) = Some p1 /\
    snd s = l ++ [(p_share p, TTransfer u self sh); (p_share p1, TBurn self sh)] ++
      [(p_ta p, TTransfer self u (fst r)); (p_tb p, TTransfer self u (snd r))] ++
      skipn 4 (withdraw_log self u 0 sh 0 (fst r) 0 (snd r)).
Proof.
  unfold l_pool_withdraw, l_burn_shares, pub_withdraw. intros H. linv H.
  match goal with K : mbind _ _ _ = Ok _ |- _ => linv K end.
  match goal with K : mbind _ _ _ = Ok _ |- _ => linv K end.
  do 3 eexists. split; [eassumption|]. split; [eassumption|]. split; [eassumption|].
  simpl snd. simpl fst. rewrite <- !app_assoc. reflexivity.
Qed.
Lemma lx_stable_withdraw e c self u sh m1 m2 dl w l r s :
  l_stable_withdraw e c self u sh m1 m2 dl (w, l) = Ok (r, s) ->
  exists p p1 w1, fget self (w_stable w) = Some p /\
    tok_transfer e (Some self) (l_share p) u self sh w = Ok (tt, w1) /\ fget self (w_stable w1) = Some p1 /\
    snd s = l ++ [(l_share p, TTransfer u self sh); (l_share p1, TBurn self sh)] ++
      [(l_ta p, TTransfer self u (fst r)); (l_tb p, TTransfer self u (snd r))] ++
      skipn 4 (withdraw_log self u 0 sh 0 (fst r) 0 (snd r)).
Proof.
  unfold l_stable_withdraw, l_stable_burn_shares, pub_withdraw. intros H. linv H.
  match goal with K : mbind _ _ _ = Ok _ |- _ => linv K end.
  match goal with K : mbind _ _ _ = Ok _ |- _ => linv K end.
  do 3 eexists. split; [eassumption|]. split; [eassumption|]. split; [eassumption|].
  simpl snd. simpl fst. rewrite <- !app_assoc. reflexivity.
Qed.

Lemma lx_mint_shares e self to amt w l u s p : l_mint_shares e self to amt (w, l) = Ok (u, s) ->
  fget self (w_pool w) = Some p -> tadmin w (p_share p) = Some self ->
  exists w' t, s = (w', l ++ [(p_share p, TMint self to amt)]) /\ fget self (w_pool w') = Some (set_p_total p t) /\
    tadmin w' (p_share p) = Some self.
Proof.
  unfold l_mint_shares. intros H Ep Ad. linv H.
  match goal with K : fget self (w_pool w) = Some ?q |- _ => assert (q = p) by congruence; subst q end.
  match goal with K : fget (p_share p) (w_tok w) = Some ?q |- _ => assert (Q : t_admin q = self) by (unfold tadmin in Ad; rewrite K in Ad; congruence); rewrite Q end.
  match goal with K : put_pool _ _ _ = Ok _ |- _ => inversion K; subst; clear K end.
  match goal with K : tok_mint _ _ _ _ _ _ = Ok _ |- _ => apply tok_mint_minted in K; destruct K as [_ Mi] end.
  do 2 eexists. split; [reflexivity|]. split; [simpl; apply fget_set_same|].
  rewrite <- Ad, <- (mt_adm _ _ _ _ _ Mi). reflexivity.
Qed.
Lemma lx_stable_mint_shares e self to amt w l u s p : l_stable_mint_shares e self to amt (w, l) = Ok (u, s) ->
  fget self (w_stable w) = Some p -> tadmin w (l_share p) = Some self ->
  exists w', s = (w', l ++ [(l_share p, TMint self to amt)]).
Proof.
  unfold l_stable_mint_shares. intros H Ep Ad. linv H.
  match goal with K : fget self (w_stable w) = Some ?q |- _ => assert (q = p) by congruence; subst q end.
  match goal with K : fget (l_share p) (w_tok w) = Some ?q |- _ => assert (Q : t_admin q = self) by (unfold tadmin in Ad; rewrite K in Ad; congruence); rewrite Q end.
  eexists. reflexivity.
Qed.

Lemma got_two e c ta tb u self a b w w1 w2 : u <> self -> ta <> tb ->
  tok_transfer e c ta u self a w = Ok (tt, w1) -> tok_transfer e c tb u self b w1 = Ok (tt, w2) ->
  bal w2 ta self = bal w ta self + a /\ bal w2 tb self = bal w tb self + b /\
  (forall t, tadmin w2 t = tadmin w t) /\ w_pool w2 = w_pool w /\ w_stable w2 = w_stable w.
Proof.
  intros N Nt M1 M2. apply tok_transfer_moved in M1, M2. destruct M1 as [_ M1]. destruct M2 as [_ M2].
  rewrite !(mv_bal _ _ _ _ _ _ M2), !(mv_bal _ _ _ _ _ _ M1). unfold ind. rewrite !Z.eqb_refl.
  destruct (Z.eqb_spec self u); [congruence|]. destruct (Z.eqb_spec ta tb); [congruence|].
  destruct (Z.eqb_spec tb ta); [congruence|]. simpl.
  split; [lia|]. split; [lia|]. split; [intros t; now rewrite (mv_adm _ _ _ _ _ _ M2), (mv_adm _ _ _ _ _ _ M1)|].
  rewrite (mv_rest _ _ _ _ _ _ M2), (mv_rest _ _ _ _ _ _ M1). auto.
Qed.

Lemma lx_pool_provide e c self u da mina db minb custom dl w l s p :
  l_pool_provide e c self u da mina db minb custom dl (w, l) = Ok (tt, s) -> u <> self ->
  fget self (w_pool w) = Some p -> tadmin w (p_share p) = Some self -> p_ta p <> p_tb p ->
  exists a b n, snd s = l ++ [(p_ta p, TTransfer u self a); (p_tb p, TTransfer u self b)] ++
      (if (0 <? p_ra p) && (0 <? p_rb p) then [] else [(p_share p, TMint self self 1000)]) ++
      [(p_share p, TMint self u n)] ++ provide_log self u (p_ta p) a (p_tb p) b.
Proof.
  unfold l_pool_provide, l_new_share_total, pub_provide. intros H N Ep Ad Nt. linv H.
  match goal with K : fget self (w_pool w) = Some ?q |- _ => assert (q = p) by congruence; subst q end.
  match goal with K1 : tok_transfer _ _ (p_ta p) _ _ ?a _ = _, K2 : tok_transfer _ _ (p_tb p) _ _ ?b _ = Ok (tt, ?v) |- _ =>
    destruct (got_two _ _ _ _ _ _ _ _ _ _ _ N Nt K1 K2) as [Ba [Bb [Ta [Po _]]]]; exists a, b; rename v into wt; rename a into va; rename b into vb end.
  repeat match goal with K : sub_i _ _ = Ok _ |- _ => apply sub_i_ok in K end.
  match goal with K : ?x = bal wt (p_ta p) self - bal w (p_ta p) self /\ _ |- _ => assert (Xa : x = va) by lia; subst x end.
  match goal with K : ?x = bal wt (p_tb p) self - bal w (p_tb p) self /\ _ |- _ => assert (Xb : x = vb) by lia; subst x end.
  match goal with K : l_mint_shares _ _ u ?n _ = _ |- _ => exists n; rename K into Mn end.
  assert (Et : fget self (w_pool wt) = Some p) by congruence. rewrite <- (Ta (p_share p)) in Ad.
  match goal with K : (if _ then _ else _) _ = Ok _ |- _ => rename K into Br end.
  destruct ((0 <? p_ra p) && (0 <? p_rb p)); linv Br.
  - destruct (lx_mint_shares _ _ _ _ _ _ _ _ _ Mn Et Ad) as [w9 [tt9 [E9 _]]]. inversion E9; subst.
    simpl snd. rewrite <- !app_assoc. reflexivity.
  - match goal with K : l_mint_shares _ _ self ?n _ = _ |- _ => rename K into Mz end.
    destruct (lx_mint_shares _ _ _ _ _ _ _ _ _ Mz Et Ad) as [w9 [t9 [E9 [P9 A9]]]]. inversion E9; subst.
    destruct (lx_mint_shares _ _ _ _ _ _ _ _ _ Mn P9 A9) as [w8 [t8 [E8 _]]]. inversion E8; subst.
    simpl snd. rewrite <- !app_assoc. reflexivity.
Qed.

Lemma lx_stable_provide e c self u da db custom dl ms w l s p :
  l_stable_provide e c self u da db custom dl ms (w, l) = Ok (tt, s) -> u <> self ->
  fget self (w_stable w) = Some p -> tadmin w (l_share p) = Some self -> l_ta p <> l_tb p ->
  exists n, snd s = l ++ [(l_ta p, TTransfer u self da); (l_tb p, TTransfer u self db)] ++
      [(l_share p, TMint self u n)] ++ provide_log self u (l_ta p) da (l_tb p) db.
Proof.
  unfold l_stable_provide, pub_provide. intros H N Ep Ad Nt. linv H.
  match goal with K : fget self (w_stable w) = Some ?q |- _ => assert (q = p) by congruence; subst q end.
  match goal with K1 : tok_transfer _ _ (l_ta p) _ _ ?a _ = _, K2 : tok_transfer _ _ (l_tb p) _ _ ?b _ = Ok (tt, ?v) |- _ =>
    destruct (got_two _ _ _ _ _ _ _ _ _ _ _ N Nt K1 K2) as [Ba [Bb [Ta [_ Po]]]]; rename v into wt end.
  repeat match goal with K : sub_i _ _ = Ok _ |- _ => apply sub_i_ok in K end.
  match goal with K : ?x = bal wt (l_ta p) self - bal w (l_ta p) self /\ _ |- _ => assert (Xa : x = da) by lia; subst x end.
  match goal with K : ?x = bal wt (l_tb p) self - bal w (l_tb p) self /\ _ |- _ => assert (Xb : x = db) by lia; subst x end.
  match goal with K : l_stable_mint_shares _ _ u ?n _ = _ |- _ => exists n; rename K into Mn end.
  assert (Et : fget self (w_stable wt) = Some p) by congruence. rewrite <- (Ta (l_share p)) in Ad.
  destruct (lx_stable_mint_shares _ _ _ _ _ _ _ _ p Mn Et Ad) as [w9 E9]. inversion E9; subst.
  simpl snd. rewrite <- !app_assoc. reflexivity.
Qed.
