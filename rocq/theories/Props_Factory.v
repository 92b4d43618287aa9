(** Properties of the factory: C62-C65, C94-C98. *)
From Coq Require Import ZArith List Bool Lia.
From Coq Require Import ZifyBool.
From Verif Require Import Base FMap Decimal DecimalProofs Curve World Token TokenProofs Frame Stake Pool PoolProofs
  Stable StableProofs Rewards Vest Factory Router System SysFrame SysInv SysPool SysStable SysSupply SysVest SysStake Script Runs
  Props_Token Props_Pool Props_Stable Props_Vest Props_Stake SysFact.
Import ListNotations.
Open Scope Z_scope.

(** The record of the factory at address [c]. *)
Definition fact_at (w : World) (c : Addr) (f : Fact) : Prop := fget c (w_fact w) = Some f.

Lemma pair_query w c f a b : fget c (w_code w) = Some KFact -> fact_at w c f ->
  fact_pool_by_pair c a b w =
    match pair_get f a b with Some p => Ok (p, w) | None => match pair_get f b a with Some p => Ok (p, w) | None => Err (EContract 4) end end.
Proof.
  intros C E. unfold fact_pool_by_pair, enter, mbind, mget, mguard, get_fact. rewrite (proj2 (is_code_iff _ _ _) C). rewrite E.
  unfold mret, mfail. destruct (pair_get f a b); auto. destruct (pair_get f b a); auto.
Qed.

(** The query finds a pool exactly by its two tokens, in either order. *)
Lemma pair_query_spec H w c f a b p : reachable H w -> fact_at w c f ->
  (fact_pool_by_pair c a b w = Ok (p, w) <->
   In p (f_lps f) /\ (pool_tokens w p = Some (a, b) \/ pool_tokens w p = Some (b, a))).
Proof.
  intros R E. pose proof (reach_good _ _ R) as G. rewrite (pair_query _ _ _ _ _ (gd_cfact _ G _ _ E) E).
  destruct (reach_fact _ _ R _ _ E) as [N L P].
  assert (TOK : forall q x y, In q (f_lps f) -> pool_tokens w q = Some (x, y) -> pair_get f x y = Some q).
  { intros q x y I T. apply L in I. destruct I as [x' [y' Q]]. destruct (P _ _ _ Q) as [_ [_ T']]. congruence. }
  assert (ORD : forall x y q, pair_get f x y = Some q -> x < y) by (intros x y q Q; apply (P _ _ _ Q)).
  split.
  - intros Q. destruct (pair_get f a b) as [q|] eqn:Q1; [|destruct (pair_get f b a) as [q|] eqn:Q2; [|discriminate]];
      inversion Q; subst q.
    + destruct (P _ _ _ Q1) as [_ [_ T]]. split; [apply L; eauto|auto].
    + destruct (P _ _ _ Q2) as [_ [_ T]]. split; [apply L; eauto|auto].
  - intros [I [T|T]]; pose proof (TOK _ _ _ I T) as Q; rewrite Q; auto.
    destruct (pair_get f a b) as [q|] eqn:Q2; auto. pose proof (ORD _ _ _ Q). pose proof (ORD _ _ _ Q2). lia.
Qed.

(** ** C62 *)
(** Once created a pool stays listed, once, and is found by its pair in either order, whatever
    happens afterwards. *)
Theorem C62_created_pool_is_registered H w e f u i ty amp ds mf p w1 l w2 :
  reachable H w -> e_hash e = H -> fact_create e None f u i ty amp ds mf w = Ok (p, w1) -> run H w1 l w2 ->
  exists g, fact_at w2 f g /\ count_occ Z.eq_dec (f_lps g) p = 1%nat /\
    fact_pool_by_pair f (i_ta i) (i_tb i) w2 = Ok (p, w2) /\ fact_pool_by_pair f (i_tb i) (i_ta i) w2 = Ok (p, w2) /\
    pool_tokens w2 p = Some (i_ta i, i_tb i).
Proof.
  intros R Eh X Rn. pose proof (reach_good _ _ R) as G.
  assert (R1 : reachable H w1).
  { eapply (reach_tx H w e (CCreate f u i ty amp ds mf)); eauto. simpl. unfold drop, mbind. rewrite X. reflexivity. }
  pose proof (create_world _ _ _ _ _ _ _ _ _ _ _ _ G X) as [g [Eg [_ [_ [Lt [Ep [_ [_ [E1 [_ Tk]]]]]]]]]].
  assert (K : exists g2, fact_at w2 f g2 /\ In p (f_lps g2)).
  { apply (run_ind2 H (fun w => exists g2, fact_at w f g2 /\ In p (f_lps g2))) with (2 := R1) (3 := Rn).
    - intros v ev v' Rv St [g2 [E2 I]]. inversion St as [e0 k0 v0 Eh0 X0|]; subst; [|exists g2; auto].
      destruct (fact_step _ _ _ _ _ _ X0 (reach_good _ _ Rv) E2) as [g3 [E3 F]]. exists g3. split; [exact E3|].
      destruct F; simpl; auto. apply in_or_app. auto.
    - exists (reg_new g (i_ta i) (i_tb i) p). split; [exact E1|]. simpl. apply in_or_app. right. left. auto. }
  destruct K as [g2 [E2 I]]. pose proof (reach_run _ _ _ _ R1 Rn) as R2.
  pose proof (pool_tokens_run _ _ _ _ _ _ R1 Rn Tk) as T2.
  exists g2. split; [auto|]. split.
  - apply NoDup_count_occ'; auto. apply (reach_fact _ _ R2 _ _ E2).
  - split; [eapply pair_query_spec; eauto|]. split; [eapply pair_query_spec; eauto|]. exact T2.
Qed.
Print Assumptions C62_created_pool_is_registered.

(** Nothing else is listed: every listed address is an initialised pool at the address derived from
    its pair, and the pair query answers a listed pool with these two tokens or nothing. *)
Theorem C62_registry_is_exact H w c f : reachable H w -> fact_at w c f ->
  (forall p, In p (f_lps f) -> exists a b, a < b /\ pool_tokens w p = Some (a, b) /\ p = H c (SPair a b)) /\
  (forall a b p w', fact_pool_by_pair c a b w = Ok (p, w') <->
     w' = w /\ In p (f_lps f) /\ (pool_tokens w p = Some (a, b) \/ pool_tokens w p = Some (b, a))).
Proof.
  intros R E. destruct (reach_fact _ _ R _ _ E) as [N L P]. split.
  - intros p I. apply L in I. destruct I as [a [b Q]]. exists a, b. destruct (P _ _ _ Q) as [A [B C]]. auto.
  - intros a b p w'. rewrite <- (pair_query_spec H w c f a b p R E). split.
    + intros Q. assert (w' = w) by (apply pure_fact_pool_by_pair in Q; auto). subst. auto.
    + intros [-> Q]. auto.
Qed.
Print Assumptions C62_registry_is_exact.

(** ** C63 *)
Theorem C63_one_pool_per_pair H w c f p q a b : reachable H w -> fact_at w c f ->
  In p (f_lps f) -> In q (f_lps f) -> pool_tokens w p = Some (a, b) ->
  pool_tokens w q = Some (a, b) \/ pool_tokens w q = Some (b, a) -> p = q.
Proof.
  intros R E Ip Iq Tp Tq. destruct (reach_fact _ _ R _ _ E) as [N L P].
  apply L in Ip. destruct Ip as [a1 [b1 Q1]]. destruct (P _ _ _ Q1) as [L1 [E1 T1]].
  apply L in Iq. destruct Iq as [a2 [b2 Q2]]. destruct (P _ _ _ Q2) as [L2 [E2 T2]].
  rewrite T1 in Tp. inversion Tp; subst a1 b1. rewrite T2 in Tq. destruct Tq as [Tq|Tq]; inversion Tq; subst; [reflexivity|lia].
Qed.
Print Assumptions C63_one_pool_per_pair.

(** and a second creation for the pair fails for ever, for both types and both orders *)
Theorem C63_no_second_pool H w e f u i ty amp ds mf p w1 l w2 e' u' i' ty' amp' ds' mf' r :
  reachable H w -> e_hash e = H -> fact_create e None f u i ty amp ds mf w = Ok (p, w1) -> run H w1 l w2 ->
  e_hash e' = H -> (i_ta i' = i_ta i /\ i_tb i' = i_tb i) \/ (i_ta i' = i_tb i /\ i_tb i' = i_ta i) ->
  fact_create e' None f u' i' ty' amp' ds' mf' w2 <> Ok r.
Proof.
  intros R Eh X Rn Eh' Ei Y. destruct r as [p' w3].
  assert (R1 : reachable H w1).
  { eapply (reach_tx H w e (CCreate f u i ty amp ds mf)); eauto. simpl. unfold drop, mbind. rewrite X. reflexivity. }
  pose proof (reach_run _ _ _ _ R1 Rn) as R2. pose proof (reach_good _ _ R2) as G2.
  pose proof (create_world _ _ _ _ _ _ _ _ _ _ _ _ (reach_good _ _ R) X) as [g [Eg [_ [_ [Lt [Ep [_ [_ [_ [_ Tk]]]]]]]]]].
  pose proof (create_world _ _ _ _ _ _ _ _ _ _ _ _ G2 Y) as [g2 [_ [_ [_ [Lt' [Ep' [Np' _]]]]]]].
  pose proof (pool_tokens_run _ _ _ _ _ _ R1 Rn Tk) as T2.
  destruct Ei as [[Ea Eb]|[Ea Eb]]; [|lia].
  assert (p' = p) by (rewrite Ep', Ep, Ea, Eb, Eh, Eh'; reflexivity). subst p'.
  destruct (pool_tokens_code _ _ _ G2 T2); congruence.
Qed.
Print Assumptions C63_no_second_pool.

(** ** C64 *)
(** Every call of every contract: the registry grows only by one pool in create_liquidity_pool signed
    by a whitelisted account; the whitelist changes only in update_whitelisted_accounts and the hashes
    only in update_wasm_hashes or update, both signed by the admin; nothing else ever changes. *)
Theorem C64_only_whitelisted_create H w e k w' c f : reachable H w -> fact_at w c f -> exec e k w = Ok (tt, w') ->
  exists f', fact_at w' c f' /\
    f_admin f' = f_admin f /\ f_hop f' = f_hop f /\ f_lpdec f' = f_lpdec f /\
    (f_lps f' = f_lps f \/
     exists u i ty amp ds mf p, k = CCreate c u i ty amp ds mf /\ In u (e_auth e) /\ In u (f_white f) /\
       f_lps f' = f_lps f ++ [p] /\ pool_tokens w p = None /\ pool_tokens w' p = Some (i_ta i, i_tb i)) /\
    (f_white f' = f_white f \/ exists add rm, k = CWhitelist c (f_admin f) add rm /\ In (f_admin f) (e_auth e)) /\
    ((f_lphash f', f_stakehash f', f_tokhash f', f_stabhash f') = (f_lphash f, f_stakehash f, f_tokhash f, f_stabhash f) \/
     ((exists a b t, k = CHashes c a b t) \/ (exists h s, k = CFactUpdate c h s)) /\ In (f_admin f) (e_auth e)).
Proof.
  intros R E X. pose proof (reach_good _ _ R) as G.
  assert (SG : forall a, signs e a = true -> In a (e_auth e)).
  { intros a S0. unfold signs in S0. apply andb_prop in S0. destruct S0 as [_ S0]. apply existsb_exists in S0.
    destruct S0 as [y [I Q]]. apply Z.eqb_eq in Q. subst. auto. }
  destruct (fact_step _ _ _ _ _ _ X G E) as [f' [E' F]]. exists f'. split; [exact E'|].
  destruct F as [u i ty amp ds mf p Ek Sg Wh Lt Ep Np Cp Tk|u add rm Ek Eu Sg|a b t s Ek Sg|]; simpl; (split; [auto|]; split; [auto|]; split; [auto|]).
  - split; [|auto]. right. exists u, i, ty, amp, ds, mf, p. split; [auto|]. split; [auto|]. split; [auto|]. split; [auto|].
    split; [|exact Tk]. destruct (pool_tokens w p) eqn:T; [|auto]. destruct (pool_tokens_code _ _ _ G T); congruence.
  - split; [auto|]. split; [|auto]. right. subst u. eauto.
  - split; [auto|]. split; [auto|]. right. auto.
  - auto.
Qed.
Print Assumptions C64_only_whitelisted_create.

(** ** C65 *)
Lemma in_zmem a l : In a l -> zmem a l = true.
Proof. intros I. apply existsb_exists. exists a. split; auto. apply Z.eqb_refl. Qed.
Lemma wl_add_in add : forall l x, In x (wl_add l add) <-> In x l \/ In x add.
Proof.
  induction add as [|a add IH]; simpl; intros l x; [tauto|]. rewrite IH. destruct (zmem a l) eqn:Z0.
  - apply zmem_in' in Z0. split; [tauto|]. intros [I|[<-|I]]; auto.
  - rewrite in_app_iff. simpl. tauto.
Qed.
Lemma wl_add_nodup add : forall l, NoDup l -> NoDup (wl_add l add).
Proof.
  induction add as [|a add IH]; simpl; intros l N; auto. apply IH. destruct (zmem a l) eqn:Z0; auto.
  apply NoDup_snoc; auto. intros I. rewrite in_zmem in Z0 by auto. discriminate.
Qed.
Lemma remove_first_in a l : NoDup l -> forall x, In x (remove_first a l) <-> In x l /\ x <> a.
Proof.
  induction 1 as [|y l N1 N2 IH]; simpl; intros x; [tauto|]. destruct (Z.eqb_spec y a) as [->|Ne].
  - split; [intros I; split; auto; intros ->; contradiction|]. intros [[<-|I] Q]; [congruence|auto].
  - simpl. rewrite IH. split; [intros [<-|[I Q]]; auto|]. intros [[<-|I] Q]; auto.
Qed.
Lemma remove_first_sub a l x : In x (remove_first a l) -> In x l.
Proof. induction l as [|y l IH]; simpl; [auto|]. destruct (y =? a); simpl; tauto. Qed.
Lemma remove_first_nodup a l : NoDup l -> NoDup (remove_first a l).
Proof.
  induction 1 as [|y l N1 N2 IH]; simpl; [constructor|]. destruct (y =? a); auto. constructor; auto.
  intros I. apply remove_first_sub in I. contradiction.
Qed.
Lemma wl_remove_in rm : forall l, NoDup l -> NoDup (wl_remove l rm) /\ forall x, In x (wl_remove l rm) <-> In x l /\ ~ In x rm.
Proof.
  induction rm as [|a rm IH]; simpl; intros l N; [split; [auto|tauto]|].
  destruct (IH _ (remove_first_nodup a l N)) as [N' I']. split; auto. intros x. rewrite I', (remove_first_in a l N).
  split; [intros [[A B] C]; split; auto; intros [->|Q]; auto|]. intros [A B]. split; [split; auto|]; intros Q; apply B; auto.
Qed.

Theorem C65_whitelist_update e c self sender add rm w w' f : fact_at w self f -> NoDup (f_white f) ->
  fact_update_whitelist e c self sender add rm w = Ok (tt, w') ->
  exists f', fact_at w' self f' /\ NoDup (f_white f') /\
    forall x, In x (f_white f') <-> (In x (f_white f) \/ In x add) /\ ~ In x rm.
Proof.
  intros E N X. unfold fact_update_whitelist in X. rstep X. winv.
  match goal with R : fget self (w_fact w) = Some ?q |- _ => unfold fact_at in E; rewrite E in R; inversion R; subst q end.
  exists (set_f_white f (wl_remove (wl_add (f_white f) add) rm)). split; [unfold fact_at; simpl; apply fget_set_same|].
  simpl. destruct (wl_remove_in rm _ (wl_add_nodup add _ N)) as [N' I']. split; auto.
  intros z. rewrite I', wl_add_in. tauto.
Qed.
Print Assumptions C65_whitelist_update.

(** duplicate-free is kept for ever *)
Theorem C65_no_duplicates_arise H w l w' c f : reachable H w -> fact_at w c f -> NoDup (f_white f) -> run H w l w' ->
  exists f', fact_at w' c f' /\ NoDup (f_white f').
Proof.
  intros R E N Rn. apply (run_ind2 H (fun v => exists g, fact_at v c g /\ NoDup (f_white g))) with (2 := R) (3 := Rn); [|eauto].
  intros v ev v' Rv St [g [E2 N2]]. inversion St as [e0 k0 v0 Eh0 X0|]; subst; [|exists g; auto].
  destruct (fact_step _ _ _ _ _ _ X0 (reach_good _ _ Rv) E2) as [g3 [E3 F]]. exists g3. split; [exact E3|].
  destruct F; simpl; auto. apply wl_remove_in. apply wl_add_nodup. auto.
Qed.
Print Assumptions C65_no_duplicates_arise.

(** ** C98: a pool, its share token and its stake contract belong together for ever *)
Theorem C98_pool_wiring H w p i : reachable H w -> pool_row w p = Some i ->
  tadmin w (q_share i) = Some p /\ q_share i <> q_ta i /\ q_share i <> q_tb i /\
  exists s, stake_at w (q_stake i) s /\ s_lp s = q_share i.
Proof.
  intros R E. destruct (reach_wired _ _ R) as [A B]. unfold pool_row in E.
  destruct (fget p (w_pool w)) as [x|] eqn:Ep.
  - inversion E; subst i; simpl. pose proof (reach_pool _ _ R _ _ Ep) as I. specialize (A _ _ Ep).
    split; [apply (pi_adm _ _ _ I)|]. split; [apply (pi_sa _ _ _ I)|]. split; [apply (pi_sb _ _ _ I)|]. exact A.
  - destruct (fget p (w_stable w)) as [x|] eqn:Es; [|discriminate]. inversion E; subst i; simpl.
    pose proof (reach_stable _ _ R _ _ Es) as I. specialize (B _ _ Es).
    split; [apply (li_adm _ _ _ I)|]. split; [apply (li_sa _ _ _ I)|]. split; [apply (li_sb _ _ _ I)|]. exact B.
Qed.
Print Assumptions C98_pool_wiring.
Theorem C98_wiring_is_private H w p i q j : reachable H w -> pool_row w p = Some i -> pool_row w q = Some j ->
  q_share i = q_share j \/ q_stake i = q_stake j -> p = q.
Proof.
  intros R E F D. destruct (C98_pool_wiring _ _ _ _ R E) as [A [_ [_ [s [S1 S2]]]]].
  destruct (C98_pool_wiring _ _ _ _ R F) as [B [_ [_ [t [T1 T2]]]]]. unfold stake_at in *.
  destruct D as [D|D]; [rewrite D in *; congruence|]. rewrite D in S1. assert (q_share i = q_share j) by congruence.
  rewrite H0 in A. congruence.
Qed.
Print Assumptions C98_wiring_is_private.

(** ** C96 *)
(** The shares of a pool a user owns: in the wallet plus in the stake contract. *)
Definition stakes_in (w : World) (k u : Addr) : list StakeE := match fget k (w_stake w) with Some s => stakes_of s u | None => [] end.
Definition held (w : World) (i : PoolInfo) (u : Addr) : Z := bal w (q_share i) u + sum_of k_amt (stakes_in w (q_stake i) u).
(** What these are worth of a reserve: the ratio is rounded down to 18 digits first. *)
Definition worth (reserve tot all : Z) : Z := if all =? 0 then 0 else reserve * (tot * 10 ^ 18 / all) / 10 ^ 18.
Definition lp_rows (w : World) (u p : Addr) : list ((Addr * Z) * (Addr * Z)) :=
  match pool_row w p with
  | Some i => if 0 <? held w i u
      then [((q_ta i, worth (q_ra i) (held w i u) (q_total i)), (q_tb i, worth (q_rb i) (held w i u) (q_total i)))] else []
  | None => [] end.
Definition stake_rows (w : World) (u p : Addr) : list (Addr * list StakeE) :=
  match pool_row w p with
  | Some i => match stakes_in w (q_stake i) u with [] => [] | l => [(q_stake i, l)] end
  | None => [] end.

Record RowOk (w : World) (p : Addr) (i : PoolInfo) : Prop := {
  ro_ra : 0 <= q_ra i; ro_rb : 0 <= q_rb i; ro_tot : 0 <= q_total i; ro_sup : supply w (q_share i) <= q_total i;
  ro_share : exists k, fget (q_share i) (w_tok w) = Some k;
  ro_stake : exists s, fget (q_stake i) (w_stake w) = Some s /\ s_lp s = q_share i }.
Lemma row_ok H w p i : reachable H w -> pool_row w p = Some i -> RowOk w p i.
Proof.
  intros R E. pose proof (C98_pool_wiring _ _ _ _ R E) as [A [_ [_ S0]]].
  assert (T : exists k, fget (q_share i) (w_tok w) = Some k).
  { unfold tadmin in A. destruct (fget (q_share i) (w_tok w)); [eauto|discriminate]. }
  unfold pool_row in E. destruct (fget p (w_pool w)) as [x|] eqn:Ep.
  - inversion E; subst i; simpl in *. pose proof (reach_pool _ _ R _ _ Ep) as I. pose proof (pi_ra _ _ _ I). pose proof (pi_rb _ _ _ I).
    constructor; simpl; try lia; auto; [|apply (pi_sup _ _ _ I)].
    pose proof (pi_min _ _ _ I). lia.
  - destruct (fget p (w_stable w)) as [x|] eqn:Es; [|discriminate]. inversion E; subst i; simpl in *.
    pose proof (reach_stable _ _ R _ _ Es) as I. pose proof (li_ra _ _ _ I). pose proof (li_rb _ _ _ I).
    constructor; simpl; try lia; auto; [apply (li_tot _ _ _ I)|apply (li_sup _ _ _ I)].
Qed.

Lemma any_info_row w p i w' : Good w -> any_pool_info p w = Ok (i, w') -> w' = w /\ pool_row w p = Some i.
Proof.
  intros G X. unfold any_pool_info in X. apply mbind_ok in X. destruct X as [v [v1 [Q X]]]. apply mget_ok in Q. inversion Q; subst v v1.
  unfold pool_row. destruct (fget p (w_code w)) as [[]|] eqn:C; try discriminate.
  - unfold pool_query in X. rstep X. winv. match goal with K : fget p (w_pool w) = Some _ |- _ => rewrite K end. auto.
  - unfold stable_query in X. rstep X. winv. match goal with K : fget p (w_stable w) = Some _ |- _ => rewrite K; rename K into E end.
    destruct (fget p (w_pool w)) eqn:E2; [|auto]. pose proof (gd_cpool _ G _ _ E2). congruence.
Qed.

Lemma share_ratio n all q a r : (if all =? 0 then Ok dec_zero else dec_from_ratio n all) = Ok q -> 0 <= n -> 0 <= all -> 0 <= r ->
  i_mul_dec r q = Ok a -> a = worth r n all.
Proof.
  intros Q Pn Pa Pr M. apply i_mul_dec_ok in M. unfold worth. change (10 ^ 18) with DEC.
  destruct (Z.eqb_spec all 0) as [->|N].
  - inversion Q; subst q. unfold dec_zero in M. rewrite Z.mul_0_r in M. exact M.
  - apply dec_from_ratio_ok in Q. destruct Q as [_ [_ ->]]. assert (0 < DEC) by (unfold DEC; lia).
    assert (0 <= n * DEC) by (apply Z.mul_nonneg_nonneg; lia).
    rewrite (Z.quot_div_nonneg (n * DEC) all) in M by lia.
    assert (0 <= n * DEC / all) by (apply Z.div_pos; lia).
    rewrite Z.quot_div_nonneg in M by (try apply Z.mul_nonneg_nonneg; lia). exact M.
Qed.

Lemma any_share_worth H w p i n a b w' : reachable H w -> pool_row w p = Some i -> 0 <= n -> any_query_share p n w = Ok ((a, b), w') ->
  w' = w /\ a = worth (q_ra i) n (q_total i) /\ b = worth (q_rb i) n (q_total i).
Proof.
  intros R E Pn X. pose proof (row_ok _ _ _ _ R E) as [O1 O2 O3 _ _ _]. pose proof (reach_good _ _ R) as G.
  unfold any_query_share in X. apply mbind_ok in X. destruct X as [v [v1 [Q X]]]. apply mget_ok in Q. inversion Q; subst v v1. clear Q.
  unfold pool_row in E. destruct (fget p (w_code w)) as [[]|] eqn:C; try discriminate.
  - unfold pool_query_share in X. rstep X. winv.
    match goal with K : fget p (w_pool w) = Some _ |- _ => rewrite K in E; inversion E; subst i; simpl in * end.
    split; [reflexivity|]. split; eapply share_ratio; eauto.
  - unfold stable_query_share in X. rstep X. winv.
    match goal with K : fget p (w_stable w) = Some _ |- _ => rewrite K in E end.
    destruct (fget p (w_pool w)) eqn:E2; [pose proof (gd_cpool _ G _ _ E2); congruence|]. inversion E; subst i; simpl in *.
    split; [reflexivity|]. split; eapply share_ratio; eauto.
Qed.

Lemma sum_stakes_ok l : forall acc r, sum_stakes l acc = Ok r -> r = acc + sum_of k_amt l.
Proof.
  induction l as [|k l IH]; simpl; intros acc r X; [inversion X; lia|]. unfold rbind in X.
  destruct (add_i acc (k_amt k)) as [a|] eqn:Q; [|discriminate]. apply IH in X. apply add_i_ok in Q. lia.
Qed.

Lemma stakes_pos H w k u : reachable H w -> forall x, In x (stakes_in w k u) -> 0 < k_amt x.
Proof.
  intros R x. unfold stakes_in. destruct (fget k (w_stake w)) as [s|] eqn:E; [|intros []]. rewrite <- stakes_user. intros I.
  pose proof (s_user_ok _ _ _ u (reach_stake _ _ R _ _ E) (proj1 (reach_now _ _ R))) as U. apply (su_stakes _ _ U _ I).
Qed.
Lemma sum_of_nonneg {A} (g : A -> Z) l : (forall x, In x l -> 0 <= g x) -> 0 <= sum_of g l.
Proof.
  induction l as [|x l IH]; simpl; intros P; [lia|]. specialize (IH ltac:(intros; apply P; auto)). specialize (P x ltac:(auto)). lia.
Qed.
Lemma held_nonneg H w i u : reachable H w -> 0 <= sum_of k_amt (stakes_in w (q_stake i) u) <= held w i u.
Proof.
  intros R. unfold held. pose proof (good_bal w (q_share i) u (reach_good _ _ R)).
  assert (0 <= sum_of k_amt (stakes_in w (q_stake i) u)); [|lia]. apply sum_of_nonneg. intros x I. pose proof (stakes_pos _ _ _ _ R _ I). lia.
Qed.

Lemma portfolio_rows H w u st l : reachable H w -> forall lps sts w', portfolio l u st w = Ok ((lps, sts), w') ->
  w' = w /\ lps = flat_map (lp_rows w u) l /\ sts = if st then flat_map (stake_rows w u) l else [].
Proof.
  intros R. pose proof (reach_good _ _ R) as G. induction l as [|p l IH]; intros lps sts w' X.
  - simpl in X. inversion X; subst. split; auto. split; auto. destruct st; auto.
  - cbn [portfolio] in X.
    apply mbind_ok in X. destruct X as [i [w1 [Q X]]]. apply any_info_row in Q; auto. destruct Q as [-> Ei].
    apply mbind_ok in X. destruct X as [bl [w1 [Q X]]]. pose proof (pure_tok_balance _ _ _ _ _ Q) as ->.
    assert (Eb : bl = bal w (q_share i) u) by (apply tok_balance_ok in Q; tauto). clear Q.
    apply mbind_ok in X. destruct X as [b [w1 [Q X]]]. unfold stake_query_staked in Q. rstep Q. winv.
    apply mbind_ok in X. destruct X as [sm [w1 [Q X]]]. apply mlift_ok in Q. destruct Q as [zq [Q E1]]. inversion E1; subst zq w1; clear E1.
    apply sum_stakes_ok in Q.
    apply mbind_ok in X. destruct X as [tot [w1 [Q2 X]]]. apply mlift_ok in Q2. destruct Q2 as [zq [Q2 E1]]. inversion E1; subst zq w1; clear E1.
    apply add_i_ok in Q2.
    match goal with K : fget (q_stake i) (w_stake w) = Some ?z |- _ => rename K into Es; rename z into s end.
    assert (Est : b_stakes (s_user s u) = stakes_in w (q_stake i) u) by (unfold stakes_in; rewrite Es; apply stakes_user).
    rewrite Est in *.
    assert (Et : tot = held w i u) by (unfold held; lia).
    apply mbind_ok in X. destruct X as [[xa xb] [w1 [Q3 X]]].
    apply (any_share_worth H w p i) in Q3; auto; [|rewrite Et; pose proof (held_nonneg _ _ i u R); lia].
    destruct Q3 as [-> [Ea Eb2]].
    apply mbind_ok in X. destruct X as [[l1 l2] [w1 [Q4 X]]]. apply IH in Q4. destruct Q4 as [-> [El1 El2]].
    inversion X; subst lps sts w'. split; [reflexivity|]. cbn [flat_map]. unfold lp_rows at 1, stake_rows at 1. rewrite Ei.
    rewrite <- Et, <- Ea, <- Eb2. split.
    + destruct (0 <? tot); simpl; rewrite El1; reflexivity.
    + destruct st; simpl; [|auto]. destruct (stakes_in w (q_stake i) u); simpl; rewrite El2; reflexivity.
Qed.

(** The portfolio lists, in the order of creation, exactly the pools of which the user owns shares, with
    what these are worth, and (if asked) exactly the stake contracts with stakes of the user. *)
Theorem C96_portfolio_is_exact H w c f u st lps sts w' : reachable H w -> fact_at w c f ->
  fact_portfolio c u st w = Ok ((lps, sts), w') ->
  w' = w /\ lps = flat_map (lp_rows w u) (f_lps f) /\ sts = if st then flat_map (stake_rows w u) (f_lps f) else [].
Proof.
  intros R E X. unfold fact_portfolio in X.
  apply mbind_ok in X. destruct X as [z1 [w1 [Q X]]]. apply enter_ok in Q. destruct Q as [_ ->].
  apply mbind_ok in X. destruct X as [g [w1 [Q X]]]. apply get_fact_ok in Q. destruct Q as [Q ->].
  unfold fact_at in E. rewrite E in Q. inversion Q; subst g. eapply portfolio_rows; eauto.
Qed.
Print Assumptions C96_portfolio_is_exact.

(** The value shown is the pro-rata share of the reserve, rounded down, short by less than 1 plus
    10^-18 of the reserve. *)
Theorem C96_worth_is_pro_rata r n all : 0 <= r -> 0 <= n -> 0 < all ->
  0 <= worth r n all /\ worth r n all * all <= r * n /\ 10 ^ 18 * (r * n) < 10 ^ 18 * ((worth r n all + 1) * all) + r * all.
Proof.
  intros Pr Pn Pa. unfold worth. destruct (Z.eqb_spec all 0); [lia|]. change (10 ^ 18) with DEC. assert (PD : 0 < DEC) by (unfold DEC; lia).
  generalize dependent DEC. intros D PD.
  set (q := n * D / all). assert (Pq : 0 <= q) by (apply Z.div_pos; [apply Z.mul_nonneg_nonneg|]; lia).
  assert (Q : q * all <= n * D < (q + 1) * all).
  { pose proof (Z.mul_div_le (n * D) all Pa). pose proof (Z.mul_succ_div_gt (n * D) all Pa). fold q in H, H0. lia. }
  set (a := r * q / D). assert (0 <= a) by (apply Z.div_pos; [apply Z.mul_nonneg_nonneg|]; lia).
  assert (A : a * D <= r * q < (a + 1) * D).
  { pose proof (Z.mul_div_le (r * q) D PD). pose proof (Z.mul_succ_div_gt (r * q) D PD). fold a in H0, H1. lia. }
  split; auto. split.
  - apply Z.mul_le_mono_pos_r with (p := D); auto. assert (a * D * all <= r * q * all) by (apply Z.mul_le_mono_nonneg_r; lia).
    assert (r * (q * all) <= r * (n * D)) by (apply Z.mul_le_mono_nonneg_l; lia). lia.
  - assert (r * (n * D) <= r * ((q + 1) * all)) by (apply Z.mul_le_mono_nonneg_l; lia).
    assert (r * q * all < (a + 1) * D * all) by (apply Z.mul_lt_mono_pos_r; lia). lia.
Qed.
Print Assumptions C96_worth_is_pro_rata.

(** An ordinary account never owns more shares than the pool has issued (unless the share token is
    itself a reward of the stake contract). *)
Theorem C96_held_at_most_total H w p i s u : reachable H w -> pool_row w p = Some i -> stake_at w (q_stake i) s ->
  ~ In (q_share i) (s_dists s) -> u <> q_stake i -> held w i u <= q_total i.
Proof.
  intros R E Es Nd Nu. pose proof (row_ok _ _ _ _ R E) as [_ _ _ O4 _ [s0 [O5 O6]]]. unfold stake_at in Es.
  rewrite Es in O5. inversion O5; subst s0. pose proof (reach_stake _ _ R _ _ Es) as I.
  pose proof (C36_principal_backed _ _ _ _ R Es ltac:(rewrite O6; exact Nd)) as B. rewrite O6 in B.
  pose proof (good_supply2 w (q_share i) u (q_stake i) (reach_good _ _ R) Nu).
  assert (L : sum_of k_amt (stakes_in w (q_stake i) u) <= s_total s); [|unfold held; lia].
  rewrite (sv_sum _ _ _ I). unfold stakes_in. rewrite Es.
  pose proof (fsum_ge_some b_total (s_users s) [u] (sv_sorted _ _ _ I) ltac:(constructor; [auto|constructor])) as F.
  assert (P : forall k v, In (k, v) (s_users s) -> 0 <= b_total v).
  { intros k v K. pose proof (sv_user _ _ _ I _ _ K) as U. rewrite (su_sum _ _ U). unfold stakes_sum. apply ksum_nonneg.
    intros x Ix. pose proof (su_stakes _ _ U _ Ix). lia. }
  specialize (F P). cbn [zsum] in F. unfold stakes_of. destruct (fget u (s_users s)) as [b|] eqn:Eb.
  - apply fget_in in Eb. pose proof (su_sum _ _ (sv_user _ _ _ I _ _ Eb)) as Q. unfold stakes_sum in Q. rewrite ksum_of in Q. lia.
  - simpl. lia.
Qed.
Print Assumptions C96_held_at_most_total.

(** ** C97: the query answers as long as all reserves and totals stay below 170141183460469231732 *)
Definition BIG : Z := 170141183460469231731.
Lemma share_runs n all r : 0 <= n <= BIG -> n <= all -> 0 <= r <= BIG ->
  exists q, (if all =? 0 then Ok dec_zero else dec_from_ratio n all) = Ok q /\ exists a, i_mul_dec r q = Ok a.
Proof.
  intros Pn La Pr. destruct (Z.eqb_spec all 0) as [->|N].
  - exists dec_zero. split; auto. exists 0. unfold i_mul_dec, dec_zero. rewrite orb_true_r. reflexivity.
  - assert (M : 0 <= n * DEC <= I128_MAX) by (unfold BIG, DEC, I128_MAX in *; lia).
    assert (Q0 : 0 <= n * DEC / all <= DEC).
    { split; [apply Z.div_pos; lia|]. apply Z.div_le_upper_bound; [lia|]. unfold DEC. lia. }
    exists (n * DEC / all). split.
    + unfold dec_from_ratio. destruct (Z.eqb_spec all 0); [lia|]. rewrite mul_i_intro by (unfold I128_MIN in *; lia). unfold rbind.
      unfold div_i. destruct (Z.eqb_spec all 0); [lia|]. rewrite Z.quot_div_nonneg by lia. rewrite chk_ok; [reflexivity|].
      unfold in_i128, I128_MIN, I128_MAX, DEC in *. lia.
    + unfold i_mul_dec. destruct ((r =? 0) || (n * DEC / all =? 0)); [eauto|].
      generalize dependent (n * DEC / all). intros q Pq.
      assert (0 <= r * q <= BIG * DEC) by (split; [apply Z.mul_nonneg_nonneg; lia|apply Z.mul_le_mono_nonneg; lia]).
      rewrite mul_i_intro by (unfold BIG, DEC, I128_MIN, I128_MAX in *; lia). unfold rbind, div_i.
      destruct (Z.eqb_spec DEC 0); [discriminate|]. rewrite Z.quot_div_nonneg by (unfold DEC; lia).
      assert (0 <= r * q / DEC <= BIG).
      { split; [apply Z.div_pos; unfold DEC; lia|]. apply Z.div_le_upper_bound; [unfold DEC; lia|]. lia. }
      rewrite chk_ok; [eauto|]. unfold in_i128, I128_MIN, I128_MAX, BIG in *. lia.
Qed.

Lemma sum_stakes_runs l : forall acc, 0 <= acc -> (forall k, In k l -> 0 <= k_amt k) -> acc + sum_of k_amt l <= I128_MAX ->
  sum_stakes l acc = Ok (acc + sum_of k_amt l).
Proof.
  induction l as [|k l IH]; simpl; intros acc P Q L; [f_equal; lia|].
  pose proof (sum_of_nonneg k_amt l ltac:(intros x Ix; apply Q; auto)). specialize (Q k ltac:(auto)) as Qk.
  rewrite add_i_intro by (unfold I128_MIN; lia). unfold rbind. rewrite IH; [f_equal; lia|lia|auto|lia].
Qed.

Lemma any_info_runs H w p i : reachable H w -> pool_row w p = Some i -> any_pool_info p w = Ok (i, w).
Proof.
  intros R E. pose proof (reach_good _ _ R) as G. unfold any_pool_info, pool_row in *. unfold mbind at 1, mget.
  destruct (fget p (w_pool w)) as [x|] eqn:Ep.
  - rewrite (gd_cpool _ G _ _ Ep). unfold pool_query. unfold mbind at 1 2. rewrite run_enter by (apply (gd_cpool _ G _ _ Ep)).
    unfold get_pool. rewrite Ep. inversion E; subst. reflexivity.
  - destruct (fget p (w_stable w)) as [x|] eqn:Es; [|discriminate]. rewrite (gd_cstable _ G _ _ Es).
    unfold stable_query. unfold mbind at 1 2. rewrite run_enter by (apply (gd_cstable _ G _ _ Es)).
    unfold get_stable. rewrite Es. inversion E; subst. reflexivity.
Qed.
Lemma any_share_runs H w p i n : reachable H w -> pool_row w p = Some i -> 0 <= n <= BIG -> n <= q_total i -> q_ra i <= BIG -> q_rb i <= BIG ->
  exists a b, any_query_share p n w = Ok ((a, b), w).
Proof.
  intros R E Pn Lt La Lb. pose proof (reach_good _ _ R) as G. pose proof (row_ok _ _ _ _ R E) as [O1 O2 _ _ _ _].
  destruct (share_runs n (q_total i) (q_ra i) Pn Lt ltac:(lia)) as [q [Q [a A]]].
  destruct (share_runs n (q_total i) (q_rb i) Pn Lt ltac:(lia)) as [q' [Q' [b B]]]. rewrite Q in Q'. inversion Q'; subst q'.
  exists a, b. unfold any_query_share, pool_row in *. unfold mbind at 1, mget.
  destruct (fget p (w_pool w)) as [x|] eqn:Ep.
  - inversion E; subst i; simpl in *. rewrite (gd_cpool _ G _ _ Ep). unfold pool_query_share.
    rewrite (run_bind _ _ _ tt w) by (apply run_enter; apply (gd_cpool _ G _ _ Ep)).
    rewrite (run_bind _ _ _ x w) by (unfold get_pool; rewrite Ep; reflexivity).
    rewrite (run_bind _ _ _ q w) by (apply run_lift; auto). rewrite (run_bind _ _ _ a w) by (apply run_lift; auto).
    rewrite (run_bind _ _ _ b w) by (apply run_lift; auto). reflexivity.
  - destruct (fget p (w_stable w)) as [x|] eqn:Es; [|discriminate].
    inversion E; subst i; simpl in *. rewrite (gd_cstable _ G _ _ Es). unfold stable_query_share.
    rewrite (run_bind _ _ _ tt w) by (apply run_enter; apply (gd_cstable _ G _ _ Es)).
    rewrite (run_bind _ _ _ x w) by (unfold get_stable; rewrite Es; reflexivity).
    rewrite (run_bind _ _ _ q w) by (apply run_lift; auto). rewrite (run_bind _ _ _ a w) by (apply run_lift; auto).
    rewrite (run_bind _ _ _ b w) by (apply run_lift; auto). reflexivity.
Qed.

Definition fits (w : World) (u : Addr) (i : PoolInfo) : Prop :=
  held w i u <= q_total i /\ q_total i <= BIG /\ q_ra i <= BIG /\ q_rb i <= BIG.

Lemma portfolio_runs H w u st l : reachable H w ->
  (forall p, In p l -> exists i, pool_row w p = Some i /\ fits w u i) -> exists r, portfolio l u st w = Ok (r, w).
Proof.
  intros R. pose proof (reach_good _ _ R) as G. induction l as [|p l IH]; intros P; [eexists; reflexivity|].
  destruct (IH ltac:(intros q Iq; apply P; right; auto)) as [[l1 l2] Hr].
  destruct (P p ltac:(left; auto)) as [i [Ei [F1 [F2 [F3 F4]]]]].
  pose proof (held_nonneg _ _ i u R) as Hn. pose proof (good_bal w (q_share i) u G) as Hb.
  destruct (row_ok _ _ _ _ R Ei) as [O1 O2 O3 O4 [k O5] [s [O6 O7]]].
  destruct (any_share_runs _ _ _ _ (held w i u) R Ei ltac:(lia) F1 F3 F4) as [a [b Hs]].
  cbn [portfolio]. rewrite (run_bind _ _ _ i w) by (eapply any_info_runs; eauto).
  assert (TB : tok_balance (q_share i) u w = Ok (bal w (q_share i) u, w)).
  { unfold tok_balance, mbind, get_tok, bal. rewrite O5. reflexivity. }
  rewrite (run_bind _ _ _ _ w TB).
  assert (SB : stake_query_staked (q_stake i) u w = Ok (s_user s u, w)).
  { unfold stake_query_staked. rewrite (run_bind _ _ _ tt w) by (apply run_enter; apply (gd_cstake _ G _ _ O6)).
    unfold mbind, get_stake. rewrite O6. reflexivity. }
  rewrite (run_bind _ _ _ _ w SB).
  assert (Est : b_stakes (s_user s u) = stakes_in w (q_stake i) u) by (unfold stakes_in; rewrite O6; apply stakes_user).
  rewrite Est. unfold held in *.
  assert (BM : BIG <= I128_MAX) by (unfold BIG, I128_MAX; lia).
  rewrite (run_bind _ _ _ (sum_of k_amt (stakes_in w (q_stake i) u)) w).
  2:{ apply run_lift. rewrite sum_stakes_runs; [f_equal; lia|lia| |lia]. intros x Ix. pose proof (stakes_pos _ _ _ _ R _ Ix). lia. }
  rewrite (run_bind _ _ _ (held w i u) w) by (apply run_lift; apply add_i_intro; unfold I128_MIN; lia).
  rewrite (run_bind _ _ _ (a, b) w) by exact Hs. cbv beta iota.
  rewrite (run_bind _ _ _ (l1, l2) w) by exact Hr. eexists. reflexivity.
Qed.

Theorem C97_portfolio_answers H w c f u st : reachable H w -> fact_at w c f ->
  (forall p i, In p (f_lps f) -> pool_row w p = Some i -> fits w u i) ->
  exists r, fact_portfolio c u st w = Ok (r, w).
Proof.
  intros R E P. pose proof (reach_good _ _ R) as G.
  destruct (portfolio_runs H w u st (f_lps f) R) as [r Hr].
  - intros p I. destruct (proj1 (C62_registry_is_exact _ _ _ _ R E) _ I) as [a [b [_ [T _]]]].
    rewrite pool_row_tokens in T. destruct (pool_row w p) as [i|] eqn:Ei; [|discriminate]. eauto.
  - exists r. unfold fact_portfolio. rewrite (run_bind _ _ _ tt w) by (apply run_enter; apply (gd_cfact _ G _ _ E)).
    rewrite (run_bind _ _ _ f w) by (unfold get_fact; unfold fact_at in E; rewrite E; reflexivity). exact Hr.
Qed.
Print Assumptions C97_portfolio_answers.
