(** Every recorded transaction keeps the record and the ledger in step ([Grow] of TouchCover.v). *)
From Coq Require Import ZArith List Bool Lia.
From Verif Require Import Base FMap Decimal Curve World Token Stake Pool Stable Rewards Vest Factory Router System.
From Verif Require Import Frame Touch TouchErase Life TouchCover.
Import ListNotations.
Open Scope list_scope.
Open Scope Z_scope.

Ltac stab := intros; match goal with H : _ |- _ => exact H end ||
  (repeat match goal with H : _ /\ _ |- _ => destruct H end; repeat split; auto; congruence).
Ltac sub_ H := intros ? H; repeat match type of H with _ /\ _ => let H' := fresh in destruct H as [H' H] end.

(** token functions *)
Lemma fmem_wb u a x k : fmem u (t_bal (tk_write_balance a x k)) = (u =? a) || fmem u (t_bal k).
Proof. unfold tk_write_balance. cbn. apply fmem_set. Qed.
Lemma rcv_bal a x k k' : tk_receive a x k = Ok k' -> forall u, fmem u (t_bal k') = (u =? a) || fmem u (t_bal k).
Proof. unfold tk_receive. intros H u. apply rbind_ok in H as (b & _ & H). inversion H; subst. apply fmem_wb. Qed.
Lemma spd_bal a x k k' : tk_spend a x k = Ok k' -> forall u, fmem u (t_bal k') = (u =? a) || fmem u (t_bal k).
Proof.
  unfold tk_spend. intros H u. apply rbind_ok in H as (g & _ & H).
  apply rbind_ok in H as (b & _ & H). inversion H; subst. apply fmem_wb.
Qed.
Lemma wal_bal s f p a x k k' : tk_write_allowance s f p a x k = Ok k' -> t_bal k' = t_bal k.
Proof. unfold tk_write_allowance. intros H. apply rbind_ok in H as (g & _ & H). inversion H; reflexivity. Qed.
Lemma sal_bal s f p a k k' : tk_spend_allowance s f p a k = Ok k' -> t_bal k' = t_bal k.
Proof.
  unfold tk_spend_allowance. intros H. destruct (tk_read_allowance s f p k) as [y ex].
  apply rbind_ok in H as (g & _ & H). destruct (0 <? a); [|inversion H; auto].
  apply rbind_ok in H as (b & _ & H). eapply wal_bal; eauto.
Qed.
Ltac bools := intros; repeat match goal with |- context [?x =? ?y] => destruct (x =? y) end;
  repeat match goal with |- context [fmem ?x ?y] => destruct (fmem x y) end; reflexivity.

Section Tok.
Variable P : World -> Prop.
Hypothesis S : forall w m, P w -> P (set_tok w m).
Ltac go := repeat (first [apply tri_guard; intros _ | eapply tri_bind; [first [apply tri_auth | apply tri_mget]|]; intros ?; cbv beta]).
Lemma tri_transfer e c t f to a : tri P (z_transfer e c t f to a) (fun _ => P).
Proof.
  unfold z_transfer. go. apply tri_upd_tok; auto. intros k k' H u. apply rbind_ok in H as (k1 & H1 & H2).
  rewrite (rcv_bal _ _ _ _ H2), (spd_bal _ _ _ _ H1). cbn [existsb]. bools.
Qed.
Lemma tri_transfer_from e c t s f to a : tri P (z_transfer_from e c t s f to a) (fun _ => P).
Proof.
  unfold z_transfer_from. go. apply tri_upd_tok; auto. intros k k' H u. apply rbind_ok in H as (k0 & H0 & H).
  apply rbind_ok in H as (k1 & H1 & H2).
  rewrite (rcv_bal _ _ _ _ H2), (spd_bal _ _ _ _ H1), (sal_bal _ _ _ _ _ _ H0). cbn [existsb]. bools.
Qed.
Lemma tri_burn e c t f a : tri P (z_burn e c t f a) (fun _ => P).
Proof.
  unfold z_burn. go. apply tri_upd_tok; auto. intros k k' H u. apply rbind_ok in H as (k1 & H1 & H2).
  inversion H2; subst. cbn [tk_log_burn t_bal]. rewrite (spd_bal _ _ _ _ H1). cbn [existsb]. bools.
Qed.
Lemma tri_burn_from e c t s f a : tri P (z_burn_from e c t s f a) (fun _ => P).
Proof.
  unfold z_burn_from. go. apply tri_upd_tok; auto. intros k k' H u. apply rbind_ok in H as (k0 & H0 & H).
  apply rbind_ok in H as (k1 & H1 & H2). inversion H2; subst. cbn [tk_log_burn t_bal].
  rewrite (spd_bal _ _ _ _ H1), (sal_bal _ _ _ _ _ _ H0). cbn [existsb]. bools.
Qed.
Lemma tri_gettok {B} t (f : Token -> TST B) R : (forall k, tri P (f k) R) -> tri P (mbind (tf (get_tok t)) f) R.
Proof. intros H. eapply tri_bind; [apply tri_g_tok|]. intros k. apply tri_pre with P; auto. intros w [X _]. exact X. Qed.
Lemma tri_mint e c t to a : tri P (z_mint e c t to a) (fun _ => P).
Proof.
  unfold z_mint. go. apply tri_gettok. intros k0. go. apply tri_upd_tok; auto. intros k k' H' u. apply rbind_ok in H' as (k1 & H1 & H2).
  inversion H2; subst. cbn [tk_log_mint t_bal]. rewrite (rcv_bal _ _ _ _ H1). cbn [existsb]. bools.
Qed.
Lemma tri_set_admin e c t a : tri P (z_set_admin e c t a) (fun _ => P).
Proof.
  unfold z_set_admin. apply tri_gettok. intros k0. go. apply tri_upd_tok; auto. intros k k' H u. inversion H; subst.
  cbn. bools.
Qed.
Lemma tri_approve e c t f s a x : tri P (z_approve e c t f s a x) (fun _ => P).
Proof.
  unfold z_approve. go. apply tri_upd_tok; auto. intros k k' H' u. rewrite (wal_bal _ _ _ _ _ _ _ H'). cbn. bools.
Qed.
End Tok.

Lemma tok_balance_ok t a w b w' : tok_balance t a w = Ok (b, w') -> w' = w /\ fmem t (w_tok w) = true.
Proof.
  unfold tok_balance, mbind, get_tok, mret. unfold fmem. destruct (fget t (w_tok w)); [|discriminate]. intros H; inversion H; auto.
Qed.
Lemma tok_decimals_ok t w b w' : tok_decimals t w = Ok (b, w') -> w' = w.
Proof. unfold tok_decimals, mbind, get_tok, mret. destruct (fget t (w_tok w)); [|discriminate]. intros H; inversion H; auto. Qed.
Lemma tri_balance (P : World -> Prop) t a : tri P (z_balance t a) (fun _ => P).
Proof.
  unfold z_balance. eapply tri_bind; [apply tri_read with (R := fun _ w => fmem t (w_tok w) = true); apply tok_balance_ok|].
  intros b. cbv beta. eapply tri_bind; [apply tri_note|].
  - reflexivity.
  - intros w c k x [_ H] [E|[E|[]]]; inversion E; subst. unfold here, present. rewrite H. apply orb_true_r.
  - intros []. cbv beta. eapply tri_bind; [apply (tri_peek _ t [YBal a])|]. intros []. eapply tri_post; [apply tri_ret|]. cbv beta. tauto.
Qed.
Lemma tri_decimals (P : World -> Prop) t : tri P (z_decimals t) (fun _ => P).
Proof.
  unfold z_decimals. eapply tri_bind; [apply tri_reads; apply tok_decimals_ok|].
  intros d. eapply tri_bind; [apply (tri_looks _ t [YInst])|]. intros []. apply tri_ret.
Qed.

(** ** stepping *)
Lemma tri_come (P : World -> Prop) self : (forall w, P w -> coded w self) -> tri P (come self) (fun _ => P).
Proof. apply tri_inst. Qed.
Lemma tri_instP (P : World -> Prop) self : (forall w, P w -> coded w self) -> tri P (instP self) (fun _ => P).
Proof. apply tri_inst. Qed.
Lemma tri_seen (P : World -> Prop) self : tri P (seen self) (fun _ => P).
Proof. apply (tri_looks P self [YInst]). Qed.
Lemma tri_look1 (P : World -> Prop) a k : tri P (tnote [mkT a k Look]) (fun _ => P).
Proof. apply (tri_looks P a [k]). Qed.

Ltac cd := intros; cbv beta in *; repeat match goal with H : _ /\ _ |- _ => destruct H end; eassumption.
Ltac unit_ := first
  [ apply tri_enter | apply tri_auth | apply tri_now | apply tri_deadline
  | apply tri_come; cd | apply tri_instP; cd | apply tri_seen | apply tri_look1 | apply tri_looks | apply tri_peek | apply tri_has
  | apply tri_get_pool; reflexivity | apply tri_get_stake; reflexivity | apply tri_get_vest; reflexivity
  | apply tri_get_fact; reflexivity | apply tri_get_trader; reflexivity | apply tri_get_rewards; reflexivity
  | apply tri_g_pool | apply tri_g_stable | apply tri_g_rewards | apply tri_g_vest | apply tri_g_fact | apply tri_g_hop
  | apply tri_balance | apply tri_decimals
  | apply tri_transfer; stab | apply tri_burn; stab | apply tri_mint; stab | apply tri_put_wasm; stab ].
Ltac pairs := repeat match goal with x : (_ * _)%type |- _ => destruct x end; cbv zeta beta.
Ltac st1 := cbv zeta; lazymatch goal with
  | |- tri _ (mbind (mlift _) _) _ => apply tri_lift; let a := fresh "a" in let E := fresh "E" in intros a E; pairs
  | |- tri _ (mbind (mguard _ _) _) _ => apply tri_guard; let G := fresh "G" in intros G
  | |- tri _ (mbind (mret _) _) _ => apply tri_skip
  | |- tri _ (mbind (tf mget) _) _ => first [apply tri_fresh | eapply tri_bind; [apply tri_mget|]; intros ?; cbv beta]
  | |- tri _ (mbind _ _) _ => eapply tri_bind; [solve [unit_]|]; let a := fresh "a" in intros a; cbv beta
  | |- tri _ (match ?t with (_, _) => _ end) _ => let E := fresh "E" in destruct t eqn:E
  end.
Ltac st := repeat st1.
Ltac fin := first [apply tri_true; first [ apply tri_transfer | apply tri_burn | apply tri_mint ]; stab
  | eapply tri_post; [first [unit_ | apply tri_lift1 | apply tri_ret] | intros; exact I]].

Definition Tt : World -> Prop := fun _ => True.
Definition Tu {A} : A -> World -> Prop := fun _ _ => True.
(** ** stake *)
Lemma tri_stake_initialize (P : World -> Prop) self a1 a2 a3 a4 a5 a6 a7 : (forall w m, P w -> P (set_stake w m)) ->
  tri P (z_stake_initialize self a1 a2 a3 a4 a5 a6 a7) (fun _ => P).
Proof. intros S. unfold z_stake_initialize. st. apply tri_new_stake; [cd | intros w H; apply S; cd]. Qed.
Ltac has1 := intros k; destruct k; cbn; rewrite ?fmem_set, ?orb_false_r; auto; try apply orb_comm.
Lemma tri_stake_bond e c self u t : tri Tt (z_stake_bond e c self u t) Tu.
Proof.
  unfold z_stake_bond. st. eapply tri_put_stake; [cd | has1 | auto].
Qed.
Lemma tri_stake_unbond e c self u t x : tri Tt (z_stake_unbond e c self u t x) Tu.
Proof. unfold z_stake_unbond. st. eapply tri_put_stake; [cd | has1 | auto]. Qed.
Lemma tri_stake_create_flow e c self u t : tri Tt (z_stake_create_flow e c self u t) Tu.
Proof.
  unfold z_stake_create_flow. st. eapply tri_put_stake; [cd | has1 | auto].
  match goal with |- context [s_dists ?x ++ _] => destruct (s_dists x); reflexivity end.
Qed.
Lemma tri_stake_distribute e c self u t x : tri Tt (z_stake_distribute e c self u t x) Tu.
Proof.
  unfold z_stake_distribute. st.
  eapply tri_bind; [eapply tri_put_stake with (R := fun _ => True); [cd | has1 | auto] |]. intros []. fin.
Qed.
Lemma pending_hist s t a b p : pending_rewards s t a b = Ok p -> fmem a (s_rh s) = true.
Proof.
  unfold pending_rewards, fmem. intros H. apply rbind_ok in H as (rh & H & _).
  destruct (fget a (s_rh s)); [reflexivity | discriminate].
Qed.
Lemma tri_pay_rewards e self u s t b l :
  tri (fun w => fget self (w_stake w) = Some s) (z_pay_rewards e self u s t b l) (fun _ w => fget self (w_stake w) = Some s).
Proof.
  induction l as [|a tl IH]; simpl z_pay_rewards; [apply tri_ret|].
  apply tri_lift. intros p E. eapply tri_bind; [apply tri_got|].
  - intros w k G [<-|[<-|[]]]; unfold here, present, fmem; rewrite G; [|reflexivity]. exact (pending_hist _ _ _ _ _ E).
  - intros []. eapply tri_bind; [apply tri_transfer; stab|]. intros []. apply IH.
Qed.
Lemma tri_stake_withdraw_rewards e self u : tri Tt (z_stake_withdraw_rewards e self u) Tu.
Proof.
  unfold z_stake_withdraw_rewards. st. eapply tri_bind; [eapply tri_pre; [apply tri_pay_rewards|cd]|].
  intros []. eapply tri_put_stake; [cd | has1 | cbv; auto].
Qed.

(** ** pool *)
Section Dep.
Variable P : World -> Prop.
Hypothesis SC : forall w m, P w -> P (set_code w m).
Hypothesis ST : forall w m, P w -> P (set_tok w m).
Hypothesis SS : forall w m, P w -> P (set_stake w m).
Lemma tri_deploy_share e self ta tb d : tri P (z_deploy_share e self ta tb d) (fun _ => P).
Proof. unfold z_deploy_share. st. eapply tri_bind; [apply tri_tok_deploy; auto|]. intros []. apply tri_ret. Qed.
Lemma tri_deploy_stake_of e self a1 a2 a3 a4 a5 a6 a7 : tri P (z_deploy_stake_of e self a1 a2 a3 a4 a5 a6 a7) (fun _ => P).
Proof.
  unfold z_deploy_stake_of. cbv zeta. eapply tri_bind; [apply tri_deploy; auto|]. intros [].
  eapply tri_bind; [eapply tri_pre; [apply (tri_stake_initialize P); auto|cd]|]. intros []. apply tri_ret.
Qed.
End Dep.
Ltac stb := intros; repeat match goal with H : _ /\ _ |- _ => destruct H end; repeat split; auto.
Lemma tri_pool_initialize (P : World -> Prop) e self i f d s mf :
  (forall w m, P w -> P (set_code w m)) -> (forall w m, P w -> P (set_tok w m)) ->
  (forall w m, P w -> P (set_stake w m)) -> (forall w m, P w -> P (set_pool w m)) ->
  tri P (z_pool_initialize e self i f d s mf) (fun _ => P).
Proof.
  intros SC ST SS SP. unfold z_pool_initialize. st.
  apply tri_pre with (fun w => P w /\ fget self (w_pool w) = None); [|intros; repeat match goal with H : _ /\ _ |- _ => destruct H end; auto].
  eapply tri_bind; [apply tri_deploy_share; stb|]. intros sh. cbv beta.
  eapply tri_bind; [apply tri_deploy_stake_of; stb|]. intros sk. cbv beta.
  apply tri_new_pool; [cd|]. intros w H. apply SP. cd.
Qed.
Lemma tri_stable_initialize (P : World -> Prop) e self i f d m :
  (forall w m, P w -> P (set_code w m)) -> (forall w m, P w -> P (set_tok w m)) ->
  (forall w m, P w -> P (set_stake w m)) -> (forall w m, P w -> P (set_stable w m)) ->
  tri P (z_stable_initialize e self i f d m) (fun _ => P).
Proof.
  intros SC ST SS SP. unfold z_stable_initialize. st.
  apply tri_pre with (fun w => P w /\ fget self (w_stable w) = None); [|intros; repeat match goal with H : _ /\ _ |- _ => destruct H end; auto].
  eapply tri_bind; [apply tri_deploy_share; stb|]. intros sh. cbv beta.
  eapply tri_bind; [apply tri_deploy_stake_of; stb|]. intros sk. cbv beta.
  st. apply tri_new_stable; [cd|]. intros w H. apply SP. cd.
Qed.
Ltac oldp := intros; repeat match goal with H : _ /\ _ |- _ => destruct H end; eauto.
Ltac putp := first [eapply tri_put_pool with (R := Tt); [solve [oldp] | reflexivity | cbv; auto]
  | eapply tri_put_stable with (R := Tt); [solve [oldp] | cbv; auto]].
Lemma tri_mint_shares P e self to a : tri P (z_mint_shares e self to a) Tu.
Proof. apply tri_true. unfold z_mint_shares. st. putp. Qed.
Lemma tri_burn_shares P e self a : tri P (z_burn_shares e self a) Tu.
Proof. apply tri_true. unfold z_burn_shares. st. putp. Qed.
Lemma tri_new_share_total P e self a b x y p : tri P (z_new_share_total e self a b x y p) Tu.
Proof.
  apply tri_true. unfold z_new_share_total. destruct ((0 <? p_ra p) && (0 <? p_rb p)); st; [fin|].
  eapply tri_bind; [apply tri_mint_shares|]. intros []. fin.
Qed.
Lemma tri_pool_provide e c self u a1 a2 a3 a4 a5 a6 : tri Tt (z_pool_provide e c self u a1 a2 a3 a4 a5 a6) Tu.
Proof.
  unfold z_pool_provide. st. eapply tri_bind; [apply tri_new_share_total|]. intros n. st.
  eapply tri_bind; [apply tri_mint_shares|]. intros []. st. putp.
Qed.
Lemma tri_do_swap P e self u o a x y z : tri P (z_do_swap e self u o a x y z) Tu.
Proof.
  apply tri_true. unfold z_do_swap. st.
  all: eapply tri_bind; [putp|]; intros []; fin.
Qed.
Lemma tri_pool_swap P e c self u o a x y d z : tri P (z_pool_swap e c self u o a x y d z) Tu.
Proof. apply tri_true. unfold z_pool_swap. st. apply tri_do_swap. Qed.
Lemma tri_pool_withdraw e c self u s a b d : tri Tt (z_pool_withdraw e c self u s a b d) Tu.
Proof.
  unfold z_pool_withdraw. st. eapply tri_bind; [apply tri_burn_shares|]. intros []. unfold Tu. st.
  eapply tri_bind; [putp|]. intros []. fin.
Qed.
(** ** stable pool *)
Lemma tri_stable_mint_shares P e self to a : tri P (z_stable_mint_shares e self to a) Tu.
Proof. apply tri_true. unfold z_stable_mint_shares. st. putp. Qed.
Lemma tri_stable_burn_shares P e self a : tri P (z_stable_burn_shares e self a) Tu.
Proof. apply tri_true. unfold z_stable_burn_shares. st. putp. Qed.
Lemma tri_stable_provide e c self u a1 a2 a3 a4 a5 : tri Tt (z_stable_provide e c self u a1 a2 a3 a4 a5) Tu.
Proof.
  unfold z_stable_provide. st.
  eapply tri_bind; [apply tri_stable_mint_shares|]. intros []. st. putp.
Qed.
Lemma tri_stable_do_swap P e self u o a x y z : tri P (z_stable_do_swap e self u o a x y z) Tu.
Proof.
  apply tri_true. unfold z_stable_do_swap. st.
  all: eapply tri_bind; [putp|]; intros []; fin.
Qed.
Lemma tri_stable_swap P e c self u o a x y d z : tri P (z_stable_swap e c self u o a x y d z) Tu.
Proof. apply tri_true. unfold z_stable_swap. st. apply tri_stable_do_swap. Qed.
Lemma tri_stable_withdraw e c self u s a b d : tri Tt (z_stable_withdraw e c self u s a b d) Tu.
Proof.
  unfold z_stable_withdraw. st. eapply tri_bind; [apply tri_stable_burn_shares|]. intros []. unfold Tu. st.
  eapply tri_bind; [putp|]. intros []. fin.
Qed.
(** ** stake_rewards *)
Lemma tri_rewards_initialize self a1 a2 a3 a4 a5 a6 : tri Tt (z_rewards_initialize self a1 a2 a3 a4 a5 a6) Tu.
Proof. unfold z_rewards_initialize. st. apply tri_new_rewards; [cd | cbv; auto]. Qed.
Lemma tri_update_rewards (P : World -> Prop) self r u p0 p1 : (forall w, P w -> fget self (w_rewards w) = Some r) ->
  tri P (z_update_rewards self r u p0 p1) Tu.
Proof.
  intros H. unfold z_update_rewards. st. eapply tri_put_rewards; [exact H | | cbv; auto].
  match goal with E : update_rewards _ _ _ _ = _ |- _ => rename E into E0 end.
  unfold update_rewards in E0. destruct (p0 =? p1); [inversion E0; subst; intros k; now rewrite orb_false_r|].
  apply rbind_ok in E0 as (d & _ & E0). destruct (r_adj_of r u) as [co wd].
  apply rbind_ok in E0 as (sp & _ & E0). apply rbind_ok in E0 as (m & _ & E0). apply rbind_ok in E0 as (c' & _ & E0).
  inversion E0; subst. has1.
Qed.
Lemma tri_rewards_add_user e c self u b : tri Tt (z_rewards_add_user e c self u b) Tu.
Proof. unfold z_rewards_add_user. st. apply tri_update_rewards. cd. Qed.
Lemma tri_rewards_bond e c self u b : tri Tt (z_rewards_bond e c self u b) Tu.
Proof. unfold z_rewards_bond. st. apply tri_update_rewards. cd. Qed.
Lemma tri_rewards_withdraw P e c self u b : tri P (z_rewards_withdraw e c self u b) Tu.
Proof.
  apply tri_true. unfold z_rewards_withdraw. st. match goal with |- context [?x =? 0] => destruct (x =? 0) end; [fin|].
  st. eapply tri_bind; [eapply tri_put_rewards with (R := Tt); [cd | has1 | cbv; auto] |]. intros []. fin.
Qed.
Lemma rewards_query_same self u b w x w' : rewards_query self u b w = Ok (x, w') -> w' = w.
Proof.
  intros H. unfold rewards_query in H.
  apply mbind_ok in H as (y1 & w1 & H1 & H). apply enter_ok in H1 as [_ ->].
  apply mbind_ok in H as (y2 & w2 & H2 & H). apply get_rewards_ok in H2 as [_ ->].
  apply mbind_ok in H as (y3 & w3 & H3 & H). inversion H3; subst.
  apply mbind_ok in H as (y4 & w4 & H4 & H). unfold mlift in H4, H.
  destruct (reward_now y2 (w_now w3) u b); inversion H4; subst. destruct (i2u y4); inversion H; reflexivity.
Qed.
Lemma tri_rewards_unbond e c self u b x : tri Tt (z_rewards_unbond e c self u b x) Tu.
Proof.
  unfold z_rewards_unbond. st. eapply tri_bind; [apply tri_reads; apply rewards_query_same|]. intros f. cbv beta.
  eapply tri_bind with (Q := Tu); [destruct (f =? 0); [fin | apply tri_rewards_withdraw]|]. intros []. st.
  apply tri_update_rewards. cd.
Qed.
Lemma tri_rewards_distribute e c self t : tri Tt (z_rewards_distribute e c self t) Tu.
Proof.
  unfold z_rewards_distribute. st. match goal with |- context [?x =? 0] => destruct (x =? 0) end; [fin|].
  st. match goal with |- context [?x =? 0] => destruct (x =? 0) end; [fin|].
  st. eapply tri_put_rewards; [cd | has1 | cbv; auto].
Qed.
Lemma tri_rewards_fund e c self s d a : tri Tt (z_rewards_fund e c self s d a) Tu.
Proof.
  unfold z_rewards_fund. st. eapply tri_put_rewards; [cd | has1 | cbv; auto].
Qed.
(** ** vesting *)
Lemma tri_vest_initialize self a1 a2 a3 a4 : tri Tt (z_vest_initialize self a1 a2 a3 a4) Tu.
Proof. unfold z_vest_initialize. st. apply tri_new_vest; [cd | cbv; auto]. Qed.
Lemma entries_put u' u i x v : fmem i (v_entries (set_v_ent v (fset u' x (v_ent v))) u) =
  if u =? u' then fmem i x else fmem i (v_entries v u).
Proof.
  unfold v_entries, set_v_ent, fgetd. cbn. destruct (Z.eqb_spec u u') as [->|N]; [now rewrite fget_set_same | now rewrite fget_set_other].
Qed.
Lemma create_has l : forall v tot v' tot', create_all v l tot = Ok (v', tot') ->
  forall k, vest_has v' k = vest_has v k || existsb (key_eqb k) (created v l).
Proof.
  induction l as [|[u c] tl IH]; intros v tot v' tot' H k; simpl in H |- *.
  - inversion H; subst. now rewrite orb_false_r.
  - apply rbind_ok in H as (amt & V & H). apply rbind_ok in H as (g & _ & H). apply rbind_ok in H as (t1 & _ & H).
    rewrite (IH _ _ _ _ H). unfold saved. rewrite V. rewrite orb_assoc. f_equal.
    destruct k; simpl; rewrite ?orb_false_r; auto. unfold save_vesting, free_index. rewrite entries_put, fmem_set.
    destruct (Z.eqb_spec u0 u) as [->|]; simpl; [apply orb_comm | now rewrite orb_false_r].
Qed.
Lemma tri_vest_create e c self l : tri Tt (z_vest_create e c self l) Tu.
Proof.
  unfold z_vest_create. st.
  match goal with E : create_all _ _ _ = _ |- _ => pose proof (create_has _ _ _ _ _ E) end.
  eapply tri_bind; [eapply tri_put_vest with (R := Tt); [cd | eassumption | cbv; auto]|]. intros []. fin.
Qed.
Lemma tri_vest_claim e c self u i : tri Tt (z_vest_claim e c self u i) Tu.
Proof.
  unfold z_vest_claim. st.
  match goal with E : v_get ?v _ _ = Ok _ |- _ => assert (M : fmem i (v_entries v u) = true) by
    (unfold v_get in E; unfold fmem; destruct (fget i (v_entries v u)); [reflexivity | discriminate]) end.
  eapply tri_bind; [apply tri_got|].
  - intros w k H [<-|[]]. unfold here, present. repeat match goal with H : _ /\ _ |- _ => destruct H end.
    match goal with G : fget self (w_vest w) = Some _ |- _ => rewrite G end. exact M.
  - intros []. eapply tri_bind; [eapply tri_put_vest with (R := Tt); [cd | | cbv; auto]|].
    + intros k. destruct k; cbn; rewrite ?orb_false_r; auto. unfold v_put. rewrite entries_put, fmem_set.
      destruct (Z.eqb_spec u0 u) as [->|]; simpl; [apply orb_comm | now rewrite orb_false_r].
    + intros []. fin.
Qed.
Lemma tri_vest_burn e c self u a : tri Tt (z_vest_burn e c self u a) Tu.
Proof. unfold z_vest_burn. st. fin. Qed.
Lemma tri_vest_mint e c self u a : tri Tt (z_vest_mint e c self u a) Tu.
Proof. unfold z_vest_mint. st. eapply tri_put_vest; [cd | has1 | cbv; auto]. Qed.
Lemma tri_vest_update_minter e c self u n : tri Tt (z_vest_update_minter e c self u n) Tu.
Proof.
  unfold z_vest_update_minter. st.
  eapply tri_bind with (Q := fun _ w => fget self (w_vest w) = Some _).
  - match goal with |- context [v_minter ?x] => destruct (v_minter x) end.
    + eapply tri_post; [apply tri_ret|cd].
    + eapply tri_post; [apply tri_got|cd]. intros w k H [<-|[]]. eapply vest_here; [cd | simpl; auto].
  - intros []. st. eapply tri_put_vest; [cd | has1 | cbv; auto].
Qed.
Lemma tri_vest_update_capacity e c self u n : tri Tt (z_vest_update_capacity e c self u n) Tu.
Proof. unfold z_vest_update_capacity. st. eapply tri_put_vest; [cd | has1 | cbv; auto]. Qed.
(** ** factory, multihop, trader *)
Lemma tri_hop_initialize (P : World -> Prop) self a f : (forall w m, P w -> P (set_hop w m)) ->
  tri P (z_hop_initialize self a f) (fun _ => P).
Proof. intros S. unfold z_hop_initialize. st. apply tri_new_hop; [cd | intros w H; apply S; cd]. Qed.
Lemma tri_fact_initialize e self a1 a2 a3 a4 a5 a6 a7 : tri Tt (z_fact_initialize e self a1 a2 a3 a4 a5 a6 a7) Tu.
Proof.
  unfold z_fact_initialize. st. apply tri_pre with (fun w => fget self (w_fact w) = None); [|cd].
  eapply tri_bind; [apply tri_deploy; stab|]. intros [].
  eapply tri_bind; [eapply tri_pre; [apply (tri_hop_initialize (fun w => fget self (w_fact w) = None)); stab | cd]|]. intros [].
  apply tri_new_fact; [cd | reflexivity | cbv; auto].
Qed.
Lemma tri_fact_create e c self u i ty amp s m : tri Tt (z_fact_create e c self u i ty amp s m) Tu.
Proof.
  unfold z_fact_create. st1. st1. st1. st1.
  eapply tri_bind; [apply tri_get_fact; destruct ty; reflexivity|]. intros f. cbv beta. st.
  apply tri_pre with (fun w => fget self (w_fact w) = Some f); [|cd].
  eapply tri_bind; [apply tri_deploy; stab|]. intros []. cbv beta. st.
  apply tri_pre with (fun w => fget self (w_fact w) = Some f); [|cd].
  eapply tri_bind with (Q := fun _ w => fget self (w_fact w) = Some f).
  { destruct ty; [apply tri_pool_initialize | apply tri_stable_initialize]; intros; assumption. }
  intros []. eapply tri_bind; [eapply tri_put_fact with (R := Tt); [cd | | cbv; auto]|].
  - intros k. destruct k; cbn; rewrite ?orb_false_r; auto. unfold pair_get, pair_set, set_f_reg, fgetd. cbn.
    match goal with |- context [?x =? i_ta i] => destruct (Z.eqb_spec x (i_ta i)) as [->|N]; simpl; [rewrite fget_set_same | rewrite fget_set_other by auto; now rewrite orb_false_r] end.
    destruct (Z.eqb_spec b (i_tb i)) as [->|N]; simpl; [now rewrite fget_set_same, orb_true_r | rewrite fget_set_other by auto; now rewrite orb_false_r].
  - intros []. fin.
Qed.
Lemma tri_fact_pool_by_pair P self a b : tri P (z_fact_pool_by_pair self a b) Tu.
Proof.
  apply tri_true. unfold z_fact_pool_by_pair. st. destruct (pair_get _ a b); [fin|]. st.
  destruct (pair_get _ b a); [fin | apply tri_fail].
Qed.
Lemma tri_any_swap P e c p u o a x y d z : tri P (z_any_swap e c p u o a x y d z) Tu.
Proof.
  apply tri_true. unfold z_any_swap. st. destruct (fget p (w_code _)) as [[]|];
    first [apply tri_fail | apply tri_pool_swap | apply tri_stable_swap].
Qed.
Lemma tri_hop_swaps e self f u ops : forall P a x d z, tri P (z_hop_swaps e self f u ops a x d z) Tu.
Proof.
  induction ops as [|o tl IH]; intros P a x d z; simpl z_hop_swaps; [fin|].
  eapply tri_bind; [apply tri_fact_pool_by_pair|]. intros p. eapply tri_bind; [apply tri_any_swap|]. intros r. apply IH.
Qed.
Lemma tri_hop_swap e c self u ops x a d z : tri Tt (z_hop_swap e c self u ops x a d z) Tu.
Proof. unfold z_hop_swap. st. apply tri_hop_swaps. Qed.
Lemma tri_trader_initialize e c self a1 a2 a3 a4 : tri Tt (z_trader_initialize e c self a1 a2 a3 a4) Tu.
Proof. unfold z_trader_initialize. st. apply tri_put_trader; [cd | cbv; auto]. Qed.
Lemma tri_trader_trade e c self u t p a1 a2 a3 a4 a5 : tri Tt (z_trader_trade e c self u t p a1 a2 a3 a4 a5) Tu.
Proof.
  unfold z_trader_trade. st. eapply tri_bind with (Q := Tu); [destruct a1; [fin | fin]|]. intros x. apply tri_any_swap.
Qed.
Lemma tri_trader_transfer e c self u r a t : tri Tt (z_trader_transfer e c self u r a t) Tu.
Proof.
  unfold z_trader_transfer. st1. st1. st1. eapply tri_bind; [apply tri_get_trader; destruct t; reflexivity|]. intros d. cbv beta. st. fin.
Qed.
(** ** settings *)
Lemma tri_pool_update_config e c self a1 a2 a3 a4 a5 a6 : tri Tt (z_pool_update_config e c self a1 a2 a3 a4 a5 a6) Tu.
Proof. unfold z_pool_update_config. st. eapply tri_put_pool; [oldp | destruct a1; reflexivity | cbv; auto]. Qed.
Lemma tri_pool_update e c self h : tri Tt (z_pool_update e c self h) Tu.
Proof. unfold z_pool_update. st. fin. Qed.
Lemma tri_pool_upgrade e c self h d : tri Tt (z_pool_upgrade e c self h d) Tu.
Proof. unfold z_pool_upgrade. st. putp. Qed.
Lemma tri_stable_upgrade e c self h : tri Tt (z_stable_upgrade e c self h) Tu.
Proof. unfold z_stable_upgrade. st. fin. Qed.
Lemma tri_stake_update e c self h : tri Tt (z_stake_update e c self h) Tu.
Proof. unfold z_stake_update. st. fin. Qed.
Lemma tri_rewards_update e c self h : tri Tt (z_rewards_update e c self h) Tu.
Proof. unfold z_rewards_update. st. fin. Qed.
Lemma tri_vest_update e c self h : tri Tt (z_vest_update e c self h) Tu.
Proof. unfold z_vest_update. st. fin. Qed.
Lemma tri_hop_update e c self h : tri Tt (z_hop_update e c self h) Tu.
Proof. unfold z_hop_update. st. fin. Qed.
Lemma tri_fact_update_whitelist e c self u a r : tri Tt (z_fact_update_whitelist e c self u a r) Tu.
Proof. unfold z_fact_update_whitelist. st. eapply tri_put_fact; [cd | has1 | cbv; auto]. Qed.
Lemma tri_fact_update_hashes e c self a1 a2 a3 : tri Tt (z_fact_update_hashes e c self a1 a2 a3) Tu.
Proof. unfold z_fact_update_hashes. st. eapply tri_put_fact; [cd | has1 | cbv; auto]. Qed.
Lemma tri_fact_update e c self h s : tri Tt (z_fact_update e c self h s) Tu.
Proof. unfold z_fact_update. st. eapply tri_put_fact; [cd | has1 | cbv; auto]. Qed.
Lemma tri_stable_update_config self u a1 a2 a3 a4 a5 : tri Tt (z_stable_update_config self u a1 a2 a3 a4 a5) Tu.
Proof.
  unfold z_stable_update_config. eapply tri_bind with (Q := fun _ w => coded w self).
  - intros w l W _. unfold tf. cbn [fst snd]. destruct (stable_update_config _ _ _ _ _ _ _ w) as [[[] w']|] eqn:E; auto.
    unfold stable_update_config in E.
    apply mbind_ok in E as (y1 & w1 & H1 & E). apply enter_ok in H1 as [C ->].
    apply mbind_ok in E as (y2 & w2 & H2 & E). apply get_stable_ok in H2 as [G ->].
    apply mbind_ok in E as (y3 & w3 & H3 & E). apply mguard_ok in H3 as [_ H3]; inversion H3; subst w3.
    apply mbind_ok in E as (y4 & w4 & H4 & E). apply mguard_ok in H4 as [_ H4]; inversion H4; subst w4.
    inversion E; subst. split; [exact W|]. split; [unfold coded, fmem; cbn; now rewrite C|].
    exists []. rewrite app_nil_r. split; [reflexivity|].
    set (x := mkStable _ _ _ _ _ _ _ _ _ _ _ _ _ _ _ _ _ _ _ _).
    assert (A : forall w1, True -> forall c k, c <> self -> present (set_stable w1 (fset self x (w_stable w1))) c k = present w1 c k) by elsewhere.
    apply (grow_put0 w (set_stable w (fset self x (w_stable w))) self []); [exact (A w I)|].
    intros k. rewrite orb_false_r. revert k. here_ G.
  - intros []. st. fin.
Qed.

Lemma tri_zdrop {A} (P : World -> Prop) (m : TST A) Q : tri P m Q -> tri P (z_drop m) Tu.
Proof. intros H. unfold z_drop. eapply tri_bind; [exact H|]. intros a. eapply tri_post; [apply tri_ret|]. intros; exact I. Qed.

Lemma tri_zexec e k : tri Tt (zexec e k) Tu.
Proof.
  destruct k; simpl zexec.
  1: { destruct k; first [apply tri_fail | eapply tri_post; [apply tri_deploy; stab | intros; exact I]]. }
  1: { eapply tri_post; [apply tri_tok_deploy; stab | intros; exact I]. }
  all: first [ apply tri_mint; stab | apply tri_set_admin; stab | apply tri_approve; stab | apply tri_transfer; stab
    | apply tri_transfer_from; stab | apply tri_burn; stab | apply tri_burn_from; stab
    | apply tri_pool_initialize; stab | apply tri_pool_provide | eapply tri_zdrop; apply tri_pool_swap
    | eapply tri_zdrop; apply tri_pool_withdraw | apply tri_pool_update_config | apply tri_pool_update | apply tri_pool_upgrade
    | apply tri_stable_initialize; stab | apply tri_stable_provide | eapply tri_zdrop; apply tri_stable_swap
    | eapply tri_zdrop; apply tri_stable_withdraw | apply tri_stable_update_config | apply tri_stable_upgrade
    | apply tri_stake_initialize; stab | apply tri_stake_bond | apply tri_stake_unbond | apply tri_stake_create_flow
    | apply tri_stake_distribute | apply tri_stake_withdraw_rewards | apply tri_stake_update
    | apply tri_rewards_initialize | apply tri_rewards_add_user | apply tri_rewards_bond | apply tri_rewards_unbond
    | apply tri_rewards_distribute | apply tri_rewards_withdraw | apply tri_rewards_fund | apply tri_rewards_update
    | apply tri_vest_initialize | apply tri_vest_create | apply tri_vest_claim | apply tri_vest_burn | apply tri_vest_mint
    | apply tri_vest_update_minter | apply tri_vest_update_capacity | apply tri_vest_update
    | apply tri_fact_initialize | eapply tri_zdrop; apply tri_fact_create | apply tri_fact_update_whitelist
    | apply tri_fact_update_hashes | apply tri_fact_update | apply tri_hop_initialize; stab | eapply tri_zdrop; apply tri_hop_swap
    | apply tri_hop_update | apply tri_trader_initialize | eapply tri_zdrop; apply tri_trader_trade | apply tri_trader_transfer ].
Qed.

(** the record and the ledger *)
Theorem zexec_grow e k w w' D : Wf w -> zexec e k (w, []) = Ok (tt, (w', D)) -> Wf w' /\ Grow w D w'.
Proof.
  intros W H. pose proof (tri_zexec e k w [] W I) as T. rewrite H in T.
  destruct T as (W' & _ & D' & E & G). simpl in E. now subst.
Qed.
