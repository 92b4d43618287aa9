(** A query leaves the ledger as it is, writes nothing, and extends existing entries only. *)
From Coq Require Import ZArith List Bool Lia.
From Verif Require Import Base FMap Decimal Curve World Token Stake Pool Stable Rewards Vest Factory Router Extra Frame System.
From Verif Require Import Touch TouchErase Life LifeLemmas TouchLogs Queries.
Import ListNotations.
Open Scope list_scope.
Open Scope Z_scope.

(** the entries some query extends *)
Definition fresh (w : World) (c : Addr) (y : Key) : bool :=
  match y with
  | YInit | YSlip | YStab | YCurve | YDistr | YAdj _ => false
  | YAdmin => fmem c (w_stake w) || fmem c (w_rewards w) || fmem c (w_trader w)
  | _ => true
  end.
Definition mild (w : World) (x : Touch) : Prop :=
  match x_act x with
  | Put => False
  | Bump _ => present w (x_at x) (x_key x) && fresh w (x_at x) (x_key x) = true
  | Peek => fresh w (x_at x) (x_key x) = true
  | _ => True
  end.

Definition obs {A} (w : World) (m : TST A) (Q : A -> Prop) : Prop := forall l a s,
  m (w, l) = Ok (a, s) -> exists D, s = (w, l ++ D) /\ Forall (mild w) D /\ Q a.

Lemma tok_ok a w x w' : get_tok a w = Ok (x, w') -> fget a (w_tok w) = Some x /\ w' = w.
Proof. unfold get_tok. intros E. destruct (fget a (w_tok w)); inversion E; subst; auto. Qed.
Section Obs.
Variable w : World.
Lemma ob_bind {A B} (m : TST A) (k : A -> TST B) Q R : obs w m Q -> (forall a, Q a -> obs w (k a) R) -> obs w (mbind m k) R.
Proof.
  intros H K l b s X. unfold mbind in X. destruct (m (w, l)) as [[a s1]|] eqn:E; [|discriminate].
  destruct (H _ _ _ E) as (D1 & -> & F1 & Qa). destruct (K a Qa _ _ _ X) as (D2 & -> & F2 & Rb).
  exists (D1 ++ D2). rewrite app_assoc, Forall_app. auto.
Qed.
Lemma ob_post {A} (m : TST A) (Q R : A -> Prop) : obs w m Q -> (forall a, Q a -> R a) -> obs w m R.
Proof. intros H K l a s X. destruct (H _ _ _ X) as (D & E & F & G). eauto 6. Qed.
Lemma ob_ret {A} (a : A) (Q : A -> Prop) : Q a -> obs w (mret a) Q.
Proof. intros H l b s X. inversion X; subst. exists []. rewrite app_nil_r. auto. Qed.
Lemma ob_fail {A} e (Q : A -> Prop) : obs w (mfail e) Q.
Proof. intros l b s X. discriminate. Qed.
Lemma ob_lift {A} (r : res A) : obs w (mlift r) (fun a => r = Ok a).
Proof. intros l b s X. unfold mlift in X. destruct r; [|discriminate]. inversion X; subst. exists []. rewrite app_nil_r. auto. Qed.
Lemma ob_guard b e : obs w (mguard b e) (fun _ => b = true).
Proof. intros l x s X. unfold mguard in X. destruct b; [|discriminate]. inversion X; subst. exists []. rewrite app_nil_r. auto. Qed.
Lemma ob_note D : Forall (mild w) D -> obs w (tnote D) (fun _ => True).
Proof. intros H l x s X. inversion X; subst. exists D. auto. Qed.
Lemma ob_tf {A} (m : ST World A) (Q : A -> Prop) : (forall a w', m w = Ok (a, w') -> w' = w /\ Q a) -> obs w (tf m) Q.
Proof.
  intros H l x s X. unfold tf in X. cbn in X. destruct (m w) as [[a w']|] eqn:E; [|discriminate]. inversion X; subst.
  destruct (H _ _ eq_refl) as [-> Qa]. exists []. rewrite app_nil_r. auto.
Qed.
Lemma ob_mget : obs w (tf mget) (fun x => x = w).
Proof. apply ob_tf. intros a w' X. inversion X; auto. Qed.
Lemma ob_now : obs w (tf now) (fun x => x = w_now w).
Proof. apply ob_tf. intros a w' X. inversion X; auto. Qed.
Lemma ob_enter c k : obs w (tf (enter c k)) (fun _ => fget c (w_code w) = Some k).
Proof. apply ob_tf. intros a w' X. apply enter_ok in X. tauto. Qed.
Lemma ob_get_pool c : obs w (tf (get_pool c)) (fun x => fget c (w_pool w) = Some x).
Proof. apply ob_tf. intros a w' X. apply get_pool_ok in X. tauto. Qed.
Lemma ob_get_stable c : obs w (tf (get_stable c)) (fun x => fget c (w_stable w) = Some x).
Proof. apply ob_tf. intros a w' X. apply get_stable_ok in X. tauto. Qed.
Lemma ob_get_stake c : obs w (tf (get_stake c)) (fun x => fget c (w_stake w) = Some x).
Proof. apply ob_tf. intros a w' X. apply get_stake_ok in X. tauto. Qed.
Lemma ob_get_rewards c : obs w (tf (get_rewards c)) (fun x => fget c (w_rewards w) = Some x).
Proof. apply ob_tf. intros a w' X. apply get_rewards_ok in X. tauto. Qed.
Lemma ob_get_vest c : obs w (tf (get_vest c)) (fun x => fget c (w_vest w) = Some x).
Proof. apply ob_tf. intros a w' X. apply get_vest_ok in X. tauto. Qed.
Lemma ob_get_fact c : obs w (tf (get_fact c)) (fun x => fget c (w_fact w) = Some x).
Proof. apply ob_tf. intros a w' X. apply get_fact_ok in X. tauto. Qed.
Lemma ob_get_hop c : obs w (tf (get_hop c)) (fun x => fget c (w_hop w) = Some x).
Proof. apply ob_tf. intros a w' X. apply get_hop_ok in X. tauto. Qed.
Lemma ob_get_trader c : obs w (tf (get_trader c)) (fun x => fget c (w_trader w) = Some x).
Proof. apply ob_tf. intros a w' X. apply get_trader_ok in X. tauto. Qed.
Lemma ob_balance0 t u : obs w (tf (tok_balance t u)) (fun b => exists k, fget t (w_tok w) = Some k /\ b = fgetd 0 u (t_bal k)).
Proof.
  apply ob_tf. intros a w' X. unfold tok_balance in X. apply mbind_ok in X as (k & w1 & G & X). apply tok_ok in G as [G ->].
  inversion X; subst. split; auto. exists k. auto.
Qed.
Lemma ob_decimals0 t : obs w (tf (tok_decimals t)) (fun b => exists k, fget t (w_tok w) = Some k /\ b = t_dec k).
Proof.
  apply ob_tf. intros a w' X. unfold tok_decimals in X. apply mbind_ok in X as (k & w1 & G & X). apply tok_ok in G as [G ->].
  inversion X; subst. split; auto. exists k. auto.
Qed.
Lemma ob_allow0 t f s : obs w (tf (tok_allowance t f s)) (fun b => exists k, fget t (w_tok w) = Some k).
Proof.
  apply ob_tf. intros a w' X. unfold tok_allowance in X. apply mbind_ok in X as (k & w1 & N & X). inversion N; subst.
  apply mbind_ok in X as (n & w2 & G & X). apply tok_ok in G as [G ->]. inversion X; subst. split; auto. exists n. auto.
Qed.
End Obs.

Lemma here {V} c (m : fmap V) x : fget c m = Some x -> fmem c m = true.
Proof. unfold fmem. intros ->. reflexivity. Qed.
Ltac there := repeat constructor; cbn; repeat match goal with
  | H : fget ?c ?m = Some ?x |- context [fmem ?c ?m] => rewrite (here _ _ _ H)
  | H : fget ?c ?m = Some ?x |- context [match fget ?c ?m with _ => _ end] => rewrite H end; rewrite ?orb_true_r; cbn; auto.
Ltac ob := cbv zeta; lazymatch goal with
  | |- obs _ (mbind _ _) _ => eapply ob_bind; [solve [ob_leaf] | let H := fresh "H" in intros ? H; cbn beta in H; try (destruct H as (? & ? & H)); try subst]
  | |- obs _ (mret _) _ => apply ob_ret; auto
  | |- obs _ (mfail _) _ => apply ob_fail
  | |- obs _ (match ?t with _ => _ end) _ => destruct t eqn:?
  | |- obs _ _ (fun _ => True) => eapply ob_post; [solve [ob_leaf] | auto] end
with ob_leaf := cbv zeta; lazymatch goal with
  | |- obs _ (tf mget) _ => apply ob_mget
  | |- obs _ (tf now) _ => apply ob_now
  | |- obs _ (tf (enter _ _)) _ => apply ob_enter
  | |- obs _ (tf (get_pool _)) _ => apply ob_get_pool
  | |- obs _ (tf (get_stable _)) _ => apply ob_get_stable
  | |- obs _ (tf (get_stake _)) _ => apply ob_get_stake
  | |- obs _ (tf (get_rewards _)) _ => apply ob_get_rewards
  | |- obs _ (tf (get_vest _)) _ => apply ob_get_vest
  | |- obs _ (tf (get_fact _)) _ => apply ob_get_fact
  | |- obs _ (tf (get_hop _)) _ => apply ob_get_hop
  | |- obs _ (tf (get_trader _)) _ => apply ob_get_trader
  | |- obs _ (tf (tok_balance _ _)) _ => apply ob_balance0
  | |- obs _ (tf (tok_decimals _)) _ => apply ob_decimals0
  | |- obs _ (tf (tok_allowance _ _ _)) _ => apply ob_allow0
  | |- obs _ (mlift _) _ => apply ob_lift
  | |- obs _ (mguard _ _) _ => apply ob_guard
  | |- obs _ (come _) _ => apply ob_note; there
  | |- obs _ (seen _) _ => apply ob_note; there
  | |- obs _ (instP _) _ => apply ob_note; there
  | |- obs _ (got _ _) _ => apply ob_note; there
  | |- obs _ (looks _ _) _ => apply ob_note; there
  | |- obs _ (peek _ _) _ => apply ob_note; there
  | |- obs _ (tnote _) _ => apply ob_note; there
  | |- _ => solve [eauto with obsdb] end.
Create HintDb obsdb.

Section Queries.
Variable w : World.
Local Notation fine m := (obs w m (fun _ => True)).
Lemma ob_balance t u : obs w (z_balance t u) (fun b => exists k, fget t (w_tok w) = Some k /\ b = fgetd 0 u (t_bal k)).
Proof. unfold z_balance. repeat ob. eauto. Qed.
Lemma ob_decimals t : obs w (z_decimals t) (fun b => exists k, fget t (w_tok w) = Some k /\ b = t_dec k).
Proof. unfold z_decimals. repeat ob. eauto. Qed.
#[local] Hint Resolve ob_balance ob_decimals : obsdb.
Lemma ob_allowance t u s : fine (z_allowance t u s).
Proof. unfold z_allowance. ob. destruct H as [k H]. repeat ob. Qed.
Lemma ob_got c ks : Forall (fun k => present w c k && fresh w c k = true) ks -> fine (got c ks).
Proof.
  intros H. apply ob_note. induction H as [|k tl P _ IH]; [constructor|]. cbn. constructor; [exact I|]. constructor; [exact P|]. exact IH.
Qed.
Lemma ob_looks c ks : fine (looks c ks).
Proof. apply ob_note. induction ks; cbn; constructor; auto. exact I. Qed.
Lemma ob_peek c ks : Forall (fun k => fresh w c k = true) ks -> fine (peek c ks).
Proof. intros H. apply ob_note. induction H; cbn; constructor; auto. Qed.
Ltac rdr := repeat first [
    eapply ob_bind; [first [solve [apply ob_got; eauto] | apply ob_looks | solve [ob_leaf]] | let H := fresh "H" in intros ? H; cbn beta in H]
  | apply ob_ret]; auto.
Lemma ob_pool_query p ks : (forall x, fget p (w_pool w) = Some x -> Forall (fun k => present w p k && fresh w p k = true) ks) ->
  obs w (z_pool_query p ks) (fun x => fget p (w_pool w) = Some x).
Proof. unfold z_pool_query, z_get_pool. intros K; rdr. Qed.
Lemma ob_stable_query p : obs w (z_stable_query p) (fun x => fget p (w_stable w) = Some x).
Proof. unfold z_stable_query. repeat ob. ob_leaf. Qed.
Lemma ob_stake_query p ks pk : Forall (fun k => fresh w p k = true) pk -> (forall x, fget p (w_stake w) = Some x -> Forall (fun k => present w p k && fresh w p k = true) ks) ->
  obs w (z_stake_query p ks pk) (fun x => fget p (w_stake w) = Some x).
Proof.
  intros Pk K. unfold z_stake_query, z_get_stake. ob. ob. eapply ob_bind with (Q := fun x => fget p (w_stake w) = Some x).
  - rdr.
  - intros s G. eapply ob_bind; [apply ob_peek, Pk | intros _ _]. apply ob_ret. exact G.
Qed.
Lemma ob_rewards_query p ks ls : (forall x, fget p (w_rewards w) = Some x -> Forall (fun k => present w p k && fresh w p k = true) ks) ->
  obs w (z_rewards_query p ks ls) (fun x => fget p (w_rewards w) = Some x).
Proof. unfold z_rewards_query, z_get_rewards. intros K; rdr. Qed.
Lemma ob_vest_query p ks : (forall x, fget p (w_vest w) = Some x -> Forall (fun k => present w p k && fresh w p k = true) ks) ->
  obs w (z_vest_query p ks) (fun x => fget p (w_vest w) = Some x /\ fget p (w_code w) = Some KVest).
Proof. unfold z_vest_query, z_get_vest. intros K; rdr. Qed.
Lemma ob_fact_query p ks : (forall x, fget p (w_fact w) = Some x -> Forall (fun k => present w p k && fresh w p k = true) ks) ->
  obs w (z_fact_query p ks) (fun x => fget p (w_fact w) = Some x).
Proof. unfold z_fact_query, z_get_fact. intros K; rdr. Qed.
Lemma ob_trader_query p ks : (forall x, fget p (w_trader w) = Some x -> Forall (fun k => present w p k && fresh w p k = true) ks) ->
  obs w (z_trader_query p ks) (fun x => fget p (w_trader w) = Some x).
Proof. unfold z_trader_query, z_get_trader. intros K; rdr. Qed.
Ltac side := intros ? ?; there.
Ltac qs := cbv zeta; lazymatch goal with
  | |- obs _ (mbind (z_pool_query _ _) _) _ => eapply ob_bind; [apply ob_pool_query; solve [side] | let H := fresh "H" in intros ? H; cbn beta in H]
  | |- obs _ (mbind (z_stable_query _) _) _ => eapply ob_bind; [apply ob_stable_query | let H := fresh "H" in intros ? H; cbn beta in H]
  | |- obs _ (mbind (z_stake_query _ _ _) _) _ => eapply ob_bind; [apply ob_stake_query; [solve [repeat constructor] | solve [side]] | let H := fresh "H" in intros ? H; cbn beta in H]
  | |- obs _ (mbind (z_rewards_query _ _ _) _) _ => eapply ob_bind; [apply ob_rewards_query; solve [side] | let H := fresh "H" in intros ? H; cbn beta in H]
  | |- obs _ (mbind (z_vest_query _ _) _) _ => eapply ob_bind; [apply ob_vest_query; solve [side] | let H := fresh "H" in let H1 := fresh "H" in intros ? H; cbn beta in H; destruct H as [H H1]]
  | |- obs _ (mbind (z_fact_query _ _) _) _ => eapply ob_bind; [apply ob_fact_query; solve [side] | let H := fresh "H" in intros ? H; cbn beta in H]
  | |- obs _ (mbind (z_trader_query _ _) _) _ => eapply ob_bind; [apply ob_trader_query; solve [side] | let H := fresh "H" in intros ? H; cbn beta in H]
  | |- _ => ob end.
Lemma ob_pool_info p : fine (z_pool_info p). Proof. unfold z_pool_info. repeat qs. Qed.
Lemma ob_stable_info p : fine (z_stable_info p). Proof. unfold z_stable_info. repeat qs. Qed.
Lemma ob_pool_simulate p o a : fine (z_pool_simulate p o a). Proof. unfold z_pool_simulate. repeat qs. Qed.
Lemma ob_pool_reverse p o a : fine (z_pool_reverse p o a). Proof. unfold z_pool_reverse. repeat qs. Qed.
Lemma ob_pool_share p a : fine (z_pool_share p a). Proof. unfold z_pool_share. repeat qs. Qed.
Lemma ob_stable_simulate p o a : fine (z_stable_simulate p o a). Proof. unfold z_stable_simulate. repeat qs. Qed.
Lemma ob_stable_reverse p o a : fine (z_stable_reverse p o a). Proof. unfold z_stable_reverse. repeat qs. Qed.
Lemma ob_stable_share p a : fine (z_stable_share p a). Proof. unfold z_stable_share. repeat qs. Qed.
Lemma ob_stable_total p : fine (z_stable_total p). Proof. unfold z_stable_total. repeat qs. Qed.
Lemma ob_staked k u : fine (z_staked k u). Proof. unfold z_staked. repeat qs. Qed.
#[local] Hint Resolve ob_pool_info ob_stable_info ob_pool_simulate ob_pool_reverse ob_pool_share ob_stable_simulate ob_stable_reverse ob_stable_share ob_stable_total ob_staked : obsdb.
Lemma ob_any_info p : fine (z_any_info p). Proof. unfold z_any_info. repeat qs; auto with obsdb. Qed.
Lemma ob_any_share p a : fine (z_any_share p a). Proof. unfold z_any_share. repeat qs; auto with obsdb. Qed.
Lemma ob_any_simulate p o a : fine (z_any_simulate p o a). Proof. unfold z_any_simulate. repeat qs; auto with obsdb. Qed.
Lemma ob_any_reverse p o a : fine (z_any_reverse p o a). Proof. unfold z_any_reverse. repeat qs; auto with obsdb. Qed.
Lemma ob_pool_by_pair f a b : fine (z_fact_pool_by_pair f a b).
Proof. unfold z_fact_pool_by_pair. repeat qs. Qed.
#[local] Hint Resolve ob_any_info ob_any_share ob_any_simulate ob_any_reverse ob_pool_by_pair : obsdb.
Lemma ob_query_pending k s t b l : fget k (w_stake w) = Some s -> fine (z_query_pending k s t b l).
Proof.
  intros G. induction l as [|a tl IH]; cbn [z_query_pending]; [apply ob_ret; auto|]. ob.
  assert (exists h, fget a (s_rh s) = Some h) as [h Hh].
  { unfold pending_rewards in H. destruct (fget a (s_rh s)); [eauto | discriminate]. }
  repeat qs; auto with obsdb.
Qed.
Lemma ob_stake_rewards k u : fine (z_stake_rewards k u).
Proof. unfold z_stake_rewards. repeat qs. apply ob_query_pending. auto. Qed.
Lemma ob_annualized r n : fine (z_annualized r n). Proof. unfold z_annualized. repeat qs. Qed.
Lemma ob_withdrawable r u b : fine (z_withdrawable r u b). Proof. unfold z_withdrawable. repeat qs. Qed.
Lemma ob_distributed r a : fine (z_distributed r a). Proof. unfold z_distributed. repeat qs. Qed.
Lemma ob_undistributed r a : fine (z_undistributed r a). Proof. unfold z_undistributed. repeat qs. Qed.
Lemma ob_vest_balance v u : fine (z_vest_balance v u). Proof. unfold z_vest_balance. repeat qs. Qed.
Lemma ob_vest_info v u i : fine (z_vest_info v u i).
Proof.
  unfold z_vest_info. repeat qs. eapply ob_bind; [|intros ? ?; apply ob_ret; auto]. apply ob_note. unfold v_get in *.
  match goal with E : of_option (fget i ?m) _ = Ok _ |- _ => destruct (fget i m) eqn:E2; [|discriminate] end. there.
Qed.
Lemma ob_all_from f c u m : forall i, fine (z_all_from f c u i m).
Proof. induction f as [|f IH]; intros i; cbn [z_all_from]; repeat qs; auto with obsdb. Qed.
Lemma ob_vest_all v u : fine (z_vest_all v u). Proof. unfold z_vest_all. repeat qs. apply ob_all_from. Qed.
Lemma ob_vest_claimable v u i : fine (z_vest_claimable v u i).
Proof.
  unfold z_vest_claimable. repeat qs. eapply ob_bind; [|intros ? ?; apply ob_ret; auto]. apply ob_note. unfold available, v_get in *.
  match goal with E : rbind (of_option (fget i ?m) _) _ = Ok _ |- _ => destruct (fget i m) eqn:E2; [|discriminate] end.
  there.
Qed.
Lemma ob_details f p : fine (z_details f p). Proof. unfold z_details. repeat qs; auto with obsdb. Qed.
Lemma ob_rows l : fine (z_rows l). Proof. induction l; cbn [z_rows]; repeat qs; auto with obsdb. Qed.
Lemma ob_portfolio u b l : fine (z_portfolio l u b). Proof. induction l; cbn [z_portfolio]; repeat qs; auto with obsdb. Qed.
Lemma ob_hop_sims f ops : forall a, fine (z_hop_sims f ops a). Proof. induction ops; intros a0; cbn [z_hop_sims]; repeat qs; auto with obsdb. Qed.
Lemma ob_hop_revs f ops : forall a, fine (z_hop_revs f ops a). Proof. induction ops; intros a0; cbn [z_hop_revs]; repeat qs; auto with obsdb. Qed.
#[local] Hint Resolve ob_rows ob_portfolio ob_hop_sims ob_hop_revs : obsdb.
Lemma ob_all_details f : fine (z_all_details f). Proof. unfold z_all_details. repeat qs; auto with obsdb. Qed.
Lemma ob_folio f u b : fine (z_folio f u b). Proof. unfold z_folio. repeat qs; auto with obsdb. Qed.
Lemma ob_hop_simulate h ops a : fine (z_hop_simulate h ops a). Proof. unfold z_hop_simulate. repeat qs; auto with obsdb. Qed.
Lemma ob_hop_reverse h ops a : fine (z_hop_reverse h ops a). Proof. unfold z_hop_reverse. repeat qs; auto with obsdb. Qed.
Lemma ob_asset t u : fine (z_asset t u). Proof. unfold z_asset. repeat qs. Qed.
#[local] Hint Resolve ob_asset : obsdb.
Lemma ob_trader_balances d : fine (z_trader_balances d). Proof. unfold z_trader_balances. repeat qs. Qed.
Lemma ob_trader_out d : fine (z_trader_out d). Proof. unfold z_trader_out. repeat qs. Qed.
Lemma ob_amap {A B} (f : A -> B) m Q : obs w m Q -> fine (amap f m).
Proof. intros H. unfold amap. eapply ob_bind; [exact H | intros ? ?; apply ob_ret; auto]. Qed.
Lemma ob_zanswer q : fine (zanswer q).
Proof.
  destruct q; cbn [zanswer]; eapply ob_amap;
    first [apply ob_balance | apply ob_allowance | apply ob_decimals | solve [apply ob_pool_query; side] | apply ob_stable_query
      | solve [apply ob_stake_query; [repeat constructor | side]] | solve [apply ob_rewards_query; side] | solve [apply ob_vest_query; side]
      | solve [apply ob_fact_query; side] | solve [apply ob_trader_query; side]
      | apply ob_stake_rewards | apply ob_annualized | apply ob_withdrawable | apply ob_distributed | apply ob_undistributed
      | apply ob_vest_balance | apply ob_vest_info | apply ob_vest_all | apply ob_vest_claimable | apply ob_details | apply ob_all_details
      | apply ob_folio | apply ob_hop_simulate | apply ob_hop_reverse | apply ob_trader_balances | apply ob_trader_out
      | solve [auto with obsdb] | idtac].
  - instantiate (1 := fun _ => True). repeat qs.
  - instantiate (1 := fun _ => True). repeat qs.
Qed.
End Queries.
