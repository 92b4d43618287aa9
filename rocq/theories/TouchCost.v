(** How many ledger entries a call touches: the entries of the record of Touch.v, each counted once. *)
From Coq Require Import ZArith List Bool Lia Arith.
From Verif Require Import Base FMap Decimal Curve World Token Stake Pool Stable Rewards Vest Factory Router System.
From Verif Require Import Touch TouchErase Life TouchCover TouchGrow LifeLemmas TouchLogs.
Import ListNotations.
Open Scope list_scope.
Open Scope Z_scope.

Definition entry_dec (x y : Addr * Key) : {x = y} + {x <> y}.
Proof. decide equality; [decide equality; apply Z.eq_dec | apply Z.eq_dec]. Defined.
Definition entry_of (x : Touch) : Addr * Key := (x_at x, x_key x).
Definition entries (D : list Touch) : nat := length (nodup entry_dec (map entry_of D)).

Open Scope nat_scope.
Lemma nodup_least {A} (dec : forall x y : A, {x = y} + {x <> y}) l l' : incl l l' -> length (nodup dec l) <= length (nodup dec l').
Proof.
  intros H. apply NoDup_incl_length; [apply NoDup_nodup|]. intros x I. apply nodup_In. apply H. now apply nodup_In in I.
Qed.
Lemma entries_app D1 D2 : entries (D1 ++ D2) <= entries D1 + entries D2.
Proof.
  unfold entries. rewrite map_app, <- app_length. apply NoDup_incl_length; [apply NoDup_nodup|].
  intros x I. apply nodup_In in I. apply in_app_or in I. apply in_or_app. rewrite !nodup_In. exact I.
Qed.
Lemma entries_le D l : (forall x, In x D -> In (entry_of x) l) -> entries D <= length l.
Proof.
  intros H. apply NoDup_incl_length; [apply NoDup_nodup|]. intros x I. apply nodup_In in I.
  apply in_map_iff in I as (y & <- & I). auto.
Qed.
Lemma entries_in D x : In x D -> In (entry_of x) (nodup entry_dec (map entry_of D)).
Proof. intros I. apply nodup_In. now apply in_map. Qed.
Lemma entries_nil : entries [] = 0. Proof. reflexivity. Qed.

Definition cost {A} (n : nat) (m : TST A) : Prop := logs (fun D => entries D <= n) m.
Lemma cost_bind {A B} a b n (m : TST A) (k : A -> TST B) : cost a m -> a + b <= n -> (forall x, cost b (k x)) -> cost n (mbind m k).
Proof.
  intros H L K w l. unfold mbind. specialize (H w l). destruct (m (w, l)) as [[x [w1 l1]]|]; auto.
  destruct H as (D1 & -> & H1). specialize (K x w1 (l ++ D1)). destruct (k x (w1, l ++ D1)) as [[y [w2 l2]]|]; auto.
  destruct K as (D2 & -> & H2). exists (D1 ++ D2). rewrite app_assoc. split; auto. pose proof (entries_app D1 D2). lia.
Qed.
Lemma cost_le {A} a n (m : TST A) : cost a m -> a <= n -> cost n m.
Proof.
  intros H L w l. specialize (H w l). destruct (m (w, l)) as [[x [w1 l1]]|]; auto. destruct H as (D & -> & H). exists D. split; auto. lia.
Qed.
Lemma cost_tf {A} (m : ST World A) : cost 0 (tf m). Proof. apply lg_tf. auto. Qed.
Lemma cost_ret {A} (a : A) : cost 0 (mret a). Proof. apply lg_ret. auto. Qed.
Lemma cost_fail {A} x : cost 0 (@mfail _ A x). Proof. apply lg_fail. Qed.
Lemma cost_lift {A} (r : res A) : cost 0 (mlift r). Proof. apply lg_lift. auto. Qed.
Lemma cost_guard b x : cost 0 (mguard b x). Proof. apply lg_guard. auto. Qed.
Lemma cost_note D l : (forall x, In x D -> In (entry_of x) l) -> cost (length l) (tnote D).
Proof. intros H. apply lg_note. now apply entries_le. Qed.
Lemma cost_note1 c k a : cost 1 (tnote [mkT c k a]).
Proof. apply (cost_note _ [(c, k)]). intros x [<-|[]]. left. reflexivity. Qed.
Lemma cost_come c : cost 1 (come c).
Proof. apply (cost_note _ [(c, YInst)]). intros x [<-|[<-|[]]]; left; reflexivity. Qed.
Lemma cost_instP c : cost 1 (instP c).
Proof. apply (cost_note _ [(c, YInst)]). intros x [<-|[<-|[]]]; left; reflexivity. Qed.
Lemma cost_seen c : cost 1 (seen c).
Proof. apply (cost_note _ [(c, YInst)]). intros x [<-|[]]; left; reflexivity. Qed.
Lemma cost_got c ks : cost (length ks) (got c ks).
Proof.
  rewrite <- (map_length (pair c)). apply cost_note. intros x I. apply in_flat_map in I as (k & I & J). apply in_map_iff.
  exists k. split; auto. simpl in J. destruct J as [<-|[<-|[]]]; reflexivity.
Qed.
Lemma cost_wrote c ks : cost (length ks) (wrote c ks).
Proof.
  rewrite <- (map_length (pair c)). apply cost_note. intros x I. apply in_flat_map in I as (k & I & J). apply in_map_iff.
  exists k. split; auto. simpl in J. destruct J as [<-|[<-|[]]]; reflexivity.
Qed.
Lemma cost_map c (a : Act) ks : cost (length ks) (tnote (map (fun k => mkT c k a) ks)).
Proof.
  rewrite <- (map_length (pair c)). apply cost_note. intros x I. apply in_map_iff in I as (k & <- & I). now apply (in_map (pair c)).
Qed.
Lemma cost_looks c ks : cost (length ks) (looks c ks). Proof. apply cost_map. Qed.
Lemma cost_puts c ks : cost (length ks) (puts c ks). Proof. apply cost_map. Qed.
Lemma cost_peek c ks : cost (length ks) (peek c ks). Proof. apply cost_map. Qed.

Create HintDb cost.
Ltac small := cbn [length Nat.add Nat.sub Nat.max]; lia.
Ltac prim := first
  [ apply cost_tf | apply cost_ret | apply cost_lift | apply cost_guard | apply cost_fail | apply cost_come | apply cost_instP | apply cost_seen
  | apply cost_got | apply cost_wrote | apply cost_looks | apply cost_puts | apply cost_peek | apply cost_note1 | solve [auto with cost nocore] ].
(** [cost N m] for a numeral [N]: pay for the parts in order *)
Ltac pay := cbv zeta; lazymatch goal with
  | |- cost ?n (mbind ?m ?k) =>
      first [ let a := open_constr:(_ : nat) in
              let H := fresh in assert (H : cost a m) by prim;
              lazymatch type of H with cost ?c _ =>
                let c' := eval cbn in c in let b := eval cbn in (n - c') in
                apply (cost_bind c b n); [exact H | small | clear H; intros ?; pay] end ]
  | |- cost ?n (match ?t with _ => _ end) => destruct t; pay
  | |- cost ?n ?m => eapply cost_le; [prim | small]
  end.

Lemma cost_deploy a k : cost 1 (z_deploy a k).
Proof. unfold z_deploy. pay. Qed.
#[local] Hint Resolve cost_deploy : cost.
Lemma cost_get_pool a ks : cost (length ks) (z_get_pool a ks).
Proof. unfold z_get_pool. apply (cost_bind 0 (length ks)); [prim|lia|intros]. apply (cost_bind (length ks) 0); [prim|lia|intros; prim]. Qed.
Lemma cost_get_stake a ks : cost (length ks) (z_get_stake a ks).
Proof. unfold z_get_stake. apply (cost_bind 0 (length ks)); [prim|lia|intros]. apply (cost_bind (length ks) 0); [prim|lia|intros; prim]. Qed.
Lemma cost_get_vest a ks : cost (length ks) (z_get_vest a ks).
Proof. unfold z_get_vest. apply (cost_bind 0 (length ks)); [prim|lia|intros]. apply (cost_bind (length ks) 0); [prim|lia|intros; prim]. Qed.
Lemma cost_get_fact a ks : cost (length ks) (z_get_fact a ks).
Proof. unfold z_get_fact. apply (cost_bind 0 (length ks)); [prim|lia|intros]. apply (cost_bind (length ks) 0); [prim|lia|intros; prim]. Qed.
Lemma cost_get_trader a ks : cost (length ks) (z_get_trader a ks).
Proof. unfold z_get_trader. apply (cost_bind 0 (length ks)); [prim|lia|intros]. apply (cost_bind (length ks) 0); [prim|lia|intros; prim]. Qed.
Lemma cost_get_rewards a ks ls : cost (length ks + length ls) (z_get_rewards a ks ls).
Proof.
  unfold z_get_rewards. apply (cost_bind 0 (length ks + length ls)); [prim|lia|intros]. apply (cost_bind (length ks) (length ls)); [prim|lia|intros].
  apply (cost_bind (length ls) 0); [prim|lia|intros; prim].
Qed.
Lemma cost_put_pool a x ks : cost (length ks) (z_put_pool a x ks).
Proof. unfold z_put_pool. apply (cost_bind 0 (length ks)); [prim|lia|intros; prim]. Qed.
Lemma cost_put_stable a x ks : cost (length ks) (z_put_stable a x ks).
Proof. unfold z_put_stable. apply (cost_bind 0 (length ks)); [prim|lia|intros; prim]. Qed.
Lemma cost_put_stake a x ks : cost (length ks) (z_put_stake a x ks).
Proof. unfold z_put_stake. apply (cost_bind 0 (length ks)); [prim|lia|intros; prim]. Qed.
Lemma cost_put_vest a x ks : cost (length ks) (z_put_vest a x ks).
Proof. unfold z_put_vest. apply (cost_bind 0 (length ks)); [prim|lia|intros; prim]. Qed.
Lemma cost_put_fact a x ks : cost (length ks) (z_put_fact a x ks).
Proof. unfold z_put_fact. apply (cost_bind 0 (length ks)); [prim|lia|intros; prim]. Qed.
Lemma cost_put_hop a x ks : cost (length ks) (z_put_hop a x ks).
Proof. unfold z_put_hop. apply (cost_bind 0 (length ks)); [prim|lia|intros; prim]. Qed.
Lemma cost_put_trader a x ks : cost (length ks) (z_put_trader a x ks).
Proof. unfold z_put_trader. apply (cost_bind 0 (length ks)); [prim|lia|intros; prim]. Qed.
Lemma cost_put_rewards a x ks ls : cost (length ks + length ls) (z_put_rewards a x ks ls).
Proof. unfold z_put_rewards. apply (cost_bind 0 (length ks + length ls)); [prim|lia|intros]. apply (cost_bind (length ks) (length ls)); [prim|lia|intros; prim]. Qed.
Ltac prim2 := first [ apply cost_get_pool | apply cost_get_stake | apply cost_get_vest | apply cost_get_fact | apply cost_get_trader | apply cost_get_rewards
  | apply cost_put_pool | apply cost_put_stable | apply cost_put_stake | apply cost_put_vest | apply cost_put_fact | apply cost_put_hop | apply cost_put_trader
  | apply cost_put_rewards | prim ].
Ltac payk := cbv zeta; lazymatch goal with
  | |- cost ?n (mbind ?m ?k) =>
      first [ let a := open_constr:(_ : nat) in
              let H := fresh in assert (H : cost a m) by prim2;
              lazymatch type of H with cost ?c _ =>
                let c' := eval cbn in c in let b := eval cbn in (n - c') in
                apply (cost_bind c b n); [exact H | small | clear H; intros ?; payk] end
            | lazymatch m with match ?t with _ => _ end => destruct t; payk end ]
  | |- cost ?n (match ?t with _ => _ end) => destruct t; payk
  | |- cost ?n ?m => eapply cost_le; [prim2 | small]
  end.

Lemma cost_upd_tok t f us : cost (1 + length us) (z_upd_tok t f us).
Proof.
  unfold z_upd_tok. apply (cost_bind 0 (1 + length us)); [prim|lia|intros]. apply (cost_bind 1 (length us)); [prim|lia|intros].
  rewrite <- (map_length (fun u => (t, YBal u))). apply cost_note. intros y I. apply in_flat_map in I as (u & I & J). apply in_map_iff.
  exists u. split; auto. simpl in J. destruct J as [<-|[<-|[<-|[]]]]; reflexivity.
Qed.
#[local] Hint Resolve cost_upd_tok : cost.
Lemma cost_balance t a : cost 2 (z_balance t a).
Proof. unfold z_balance. payk. Qed.
#[local] Hint Resolve cost_balance : cost.
Lemma cost_decimals t : cost 1 (z_decimals t).
Proof. unfold z_decimals. payk. Qed.
#[local] Hint Resolve cost_decimals : cost.
Lemma cost_mint e c t to a : cost 2 (z_mint e c t to a).
Proof. unfold z_mint. payk. Qed.
#[local] Hint Resolve cost_mint : cost.
Lemma cost_set_admin e c t a : cost 1 (z_set_admin e c t a).
Proof. unfold z_set_admin. payk. Qed.
#[local] Hint Resolve cost_set_admin : cost.
Lemma cost_approve e c t f s a x : cost 1 (z_approve e c t f s a x).
Proof. unfold z_approve. payk. Qed.
#[local] Hint Resolve cost_approve : cost.
Lemma cost_transfer e c t f to a : cost 3 (z_transfer e c t f to a).
Proof. unfold z_transfer. payk. Qed.
#[local] Hint Resolve cost_transfer : cost.
Lemma cost_transfer_from e c t s f to a : cost 3 (z_transfer_from e c t s f to a).
Proof. unfold z_transfer_from. payk. Qed.
#[local] Hint Resolve cost_transfer_from : cost.
Lemma cost_burn e c t f a : cost 2 (z_burn e c t f a).
Proof. unfold z_burn. payk. Qed.
#[local] Hint Resolve cost_burn : cost.
Lemma cost_burn_from e c t s f a : cost 2 (z_burn_from e c t s f a).
Proof. unfold z_burn_from. payk. Qed.
#[local] Hint Resolve cost_burn_from : cost.
Lemma cost_tok_deploy t a d : cost 1 (z_tok_deploy t a d).
Proof. unfold z_tok_deploy. payk. Qed.
#[local] Hint Resolve cost_tok_deploy : cost.
Lemma cost_stake_initialize (self admin lp minbond minreward manager owner maxc : Z) : cost 5 (z_stake_initialize self admin lp minbond minreward manager owner maxc).
Proof. unfold z_stake_initialize. payk. Qed.
#[local] Hint Resolve cost_stake_initialize : cost.
Lemma cost_stake_bond (e : Env) (c : option Addr) (self sender tokens : Z) : cost 9 (z_stake_bond e c self sender tokens).
Proof. unfold z_stake_bond. payk. Qed.
#[local] Hint Resolve cost_stake_bond : cost.
Lemma cost_stake_unbond (e : Env) (c : option Addr) (self sender amt ts : Z) : cost 9 (z_stake_unbond e c self sender amt ts).
Proof. unfold z_stake_unbond. payk. Qed.
#[local] Hint Resolve cost_stake_unbond : cost.
Lemma cost_stake_create_flow (e : Env) (c : option Addr) (self sender asset : Z) : cost 5 (z_stake_create_flow e c self sender asset).
Proof. unfold z_stake_create_flow. payk. Qed.
#[local] Hint Resolve cost_stake_create_flow : cost.
Lemma cost_stake_distribute (e : Env) (c : option Addr) (self sender amt token : Z) : cost 11 (z_stake_distribute e c self sender amt token).
Proof. unfold z_stake_distribute. payk. Qed.
#[local] Hint Resolve cost_stake_distribute : cost.
Lemma cost_deploy_share (e : Env) (self ta tb dec : Z) : cost 1 (z_deploy_share e self ta tb dec).
Proof. unfold z_deploy_share. payk. Qed.
#[local] Hint Resolve cost_deploy_share : cost.
Lemma cost_deploy_stake_of (e : Env) (self admin share minbond minreward manager owner maxc : Z) : cost 6 (z_deploy_stake_of e self admin share minbond minreward manager owner maxc).
Proof. unfold z_deploy_stake_of. payk. Qed.
#[local] Hint Resolve cost_deploy_stake_of : cost.
Lemma cost_pool_initialize (e : Env) (self : Addr) (i : PoolInit) (factory dec defslip maxfee : Z) : cost 16 (z_pool_initialize e self i factory dec defslip maxfee).
Proof. unfold z_pool_initialize. payk. Qed.
#[local] Hint Resolve cost_pool_initialize : cost.
Lemma cost_mint_shares (e : Env) (self to amt : Z) : cost 4 (z_mint_shares e self to amt).
Proof. unfold z_mint_shares. payk. Qed.
#[local] Hint Resolve cost_mint_shares : cost.
Lemma cost_burn_shares (e : Env) (self amt : Z) : cost 4 (z_burn_shares e self amt).
Proof. unfold z_burn_shares. payk. Qed.
#[local] Hint Resolve cost_burn_shares : cost.
Lemma cost_new_share_total (e : Env) (self a b bala balb : Z) (p : Pool) : cost 4 (z_new_share_total e self a b bala balb p).
Proof. unfold z_new_share_total. payk. Qed.
#[local] Hint Resolve cost_new_share_total : cost.
Lemma cost_pool_provide (e : Env) (c : option Addr) (self sender : Addr)
    (da mina db minb custom dl : option Z) : cost 30 (z_pool_provide e c self sender da mina db minb custom dl).
Proof. unfold z_pool_provide. payk. Qed.
#[local] Hint Resolve cost_pool_provide : cost.
Lemma cost_do_swap (e : Env) (self sender offer amt : Z) (ask_min max_spread max_fee : option Z) : cost 18 (z_do_swap e self sender offer amt ask_min max_spread max_fee).
Proof. unfold z_do_swap. payk. Qed.
#[local] Hint Resolve cost_do_swap : cost.
Lemma cost_pool_swap (e : Env) (c : option Addr) (self sender offer amt : Z)
    (ask_min max_spread dl max_fee : option Z) : cost 19 (z_pool_swap e c self sender offer amt ask_min max_spread dl max_fee).
Proof. unfold z_pool_swap. payk. Qed.
#[local] Hint Resolve cost_pool_swap : cost.
Lemma cost_pool_withdraw (e : Env) (c : option Addr) (self sender share mina minb : Z) (dl : option Z) : cost 20 (z_pool_withdraw e c self sender share mina minb dl).
Proof. unfold z_pool_withdraw. payk. Qed.
#[local] Hint Resolve cost_pool_withdraw : cost.
Lemma cost_stable_initialize (e : Env) (self : Addr) (i : PoolInit) (factory amp maxfee : Z) : cost 12 (z_stable_initialize e self i factory amp maxfee).
Proof. unfold z_stable_initialize. payk. Qed.
#[local] Hint Resolve cost_stable_initialize : cost.
Lemma cost_stable_mint_shares (e : Env) (self to amt : Z) : cost 2 (z_stable_mint_shares e self to amt).
Proof. unfold z_stable_mint_shares. payk. Qed.
#[local] Hint Resolve cost_stable_mint_shares : cost.
Lemma cost_stable_burn_shares (e : Env) (self amt : Z) : cost 2 (z_stable_burn_shares e self amt).
Proof. unfold z_stable_burn_shares. payk. Qed.
#[local] Hint Resolve cost_stable_burn_shares : cost.
Lemma cost_stable_provide (e : Env) (c : option Addr) (self sender da db : Z)
    (custom dl min_shares : option Z) : cost 24 (z_stable_provide e c self sender da db custom dl min_shares).
Proof. unfold z_stable_provide. payk. Qed.
#[local] Hint Resolve cost_stable_provide : cost.
Lemma cost_stable_do_swap (e : Env) (self sender offer amt : Z) (ask_min max_spread max_fee : option Z) : cost 13 (z_stable_do_swap e self sender offer amt ask_min max_spread max_fee).
Proof. unfold z_stable_do_swap. payk. Qed.
#[local] Hint Resolve cost_stable_do_swap : cost.
Lemma cost_stable_swap (e : Env) (c : option Addr) (self sender offer amt : Z)
    (ask_min max_spread dl max_fee : option Z) : cost 15 (z_stable_swap e c self sender offer amt ask_min max_spread dl max_fee).
Proof. unfold z_stable_swap. payk. Qed.
#[local] Hint Resolve cost_stable_swap : cost.
Lemma cost_stable_withdraw (e : Env) (c : option Addr) (self sender share mina minb : Z) (dl : option Z) : cost 13 (z_stable_withdraw e c self sender share mina minb dl).
Proof. unfold z_stable_withdraw. payk. Qed.
#[local] Hint Resolve cost_stable_withdraw : cost.
Lemma cost_rewards_initialize (self admin staking token maxc minreward minbond : Z) : cost 7 (z_rewards_initialize self admin staking token maxc minreward minbond).
Proof. unfold z_rewards_initialize. payk. Qed.
#[local] Hint Resolve cost_rewards_initialize : cost.
Lemma cost_update_rewards (self : Addr) (r : Rewards) (u : Addr) (p0 p1 : Z) : cost 2 (z_update_rewards self r u p0 p1).
Proof. unfold z_update_rewards. match goal with |- context [if ?b then [] else _] => destruct b end; payk. Qed.
#[local] Hint Resolve cost_update_rewards : cost.
Lemma cost_rewards_add_user (e : Env) (c : option Addr) (self user : Addr) (b : Bonding) : cost 5 (z_rewards_add_user e c self user b).
Proof. unfold z_rewards_add_user. payk. Qed.
#[local] Hint Resolve cost_rewards_add_user : cost.
Lemma cost_rewards_bond (e : Env) (c : option Addr) (self sender : Addr) (b : Bonding) : cost 5 (z_rewards_bond e c self sender b).
Proof. unfold z_rewards_bond. payk. Qed.
#[local] Hint Resolve cost_rewards_bond : cost.
Lemma cost_rewards_withdraw (e : Env) (c : option Addr) (self sender : Addr) (b : Bonding) : cost 9 (z_rewards_withdraw e c self sender b).
Proof. unfold z_rewards_withdraw. payk. Qed.
#[local] Hint Resolve cost_rewards_withdraw : cost.
Lemma cost_rewards_unbond (e : Env) (c : option Addr) (self sender : Addr) (b : Bonding) (removed : Z) : cost 15 (z_rewards_unbond e c self sender b removed).
Proof. unfold z_rewards_unbond. payk. Qed.
#[local] Hint Resolve cost_rewards_unbond : cost.
Lemma cost_rewards_distribute (e : Env) (c : option Addr) (self total_staked : Z) : cost 7 (z_rewards_distribute e c self total_staked).
Proof. unfold z_rewards_distribute. payk. Qed.
#[local] Hint Resolve cost_rewards_distribute : cost.
Lemma cost_rewards_fund (e : Env) (c : option Addr) (self start duration amount : Z) : cost 8 (z_rewards_fund e c self start duration amount).
Proof. unfold z_rewards_fund. payk. Qed.
#[local] Hint Resolve cost_rewards_fund : cost.
Lemma cost_vest_initialize (self admin token maxc : Z) (minter : option (Addr * Z)) : cost 2 (z_vest_initialize self admin token maxc minter).
Proof. unfold z_vest_initialize. payk. Qed.
#[local] Hint Resolve cost_vest_initialize : cost.
Lemma cost_vest_claim (e : Env) (c : option Addr) (self sender i : Addr) : cost 7 (z_vest_claim e c self sender i).
Proof. unfold z_vest_claim. payk. Qed.
#[local] Hint Resolve cost_vest_claim : cost.
Lemma cost_vest_burn (e : Env) (c : option Addr) (self sender amt : Z) : cost 4 (z_vest_burn e c self sender amt).
Proof. unfold z_vest_burn. payk. Qed.
#[local] Hint Resolve cost_vest_burn : cost.
Lemma cost_vest_mint (e : Env) (c : option Addr) (self sender amt : Z) : cost 4 (z_vest_mint e c self sender amt).
Proof. unfold z_vest_mint. payk. Qed.
#[local] Hint Resolve cost_vest_mint : cost.
Lemma cost_vest_update_minter (e : Env) (c : option Addr) (self sender new : Addr) : cost 3 (z_vest_update_minter e c self sender new).
Proof. unfold z_vest_update_minter. payk. Qed.
#[local] Hint Resolve cost_vest_update_minter : cost.
Lemma cost_vest_update_capacity (e : Env) (c : option Addr) (self sender cap : Z) : cost 3 (z_vest_update_capacity e c self sender cap).
Proof. unfold z_vest_update_capacity. payk. Qed.
#[local] Hint Resolve cost_vest_update_capacity : cost.
Lemma cost_hop_initialize (self admin factory : Addr) : cost 3 (z_hop_initialize self admin factory).
Proof. unfold z_hop_initialize. payk. Qed.
#[local] Hint Resolve cost_hop_initialize : cost.
Lemma cost_fact_initialize (e : Env) (self admin lph stabh stakeh tokh : Z) (white : list Addr) (lpdec : Z) : cost 10 (z_fact_initialize e self admin lph stabh stakeh tokh white lpdec).
Proof. unfold z_fact_initialize. payk. Qed.
#[local] Hint Resolve cost_fact_initialize : cost.
Lemma cost_fact_create (e : Env) (c : option Addr) (self sender : Addr) (i : PoolInit) (ty : PoolType)
    (amp : option Z) (defslip maxfee : Z) : cost 22 (z_fact_create e c self sender i ty amp defslip maxfee).
Proof. unfold z_fact_create. match goal with x : PoolType |- _ => destruct x end; payk. Qed.
#[local] Hint Resolve cost_fact_create : cost.
Lemma cost_fact_pool_by_pair (self a b : Addr) : cost 3 (z_fact_pool_by_pair self a b).
Proof. unfold z_fact_pool_by_pair. payk. Qed.
#[local] Hint Resolve cost_fact_pool_by_pair : cost.
Lemma cost_any_swap (e : Env) (c : option Addr) (pool sender offer amt : Z)
    (ask_min max_spread dl max_fee : option Z) : cost 19 (z_any_swap e c pool sender offer amt ask_min max_spread dl max_fee).
Proof. unfold z_any_swap. payk. Qed.
#[local] Hint Resolve cost_any_swap : cost.
Lemma cost_trader_initialize (e : Env) (c : option Addr) (self admin ta tb out : Addr) : cost 7 (z_trader_initialize e c self admin ta tb out).
Proof. unfold z_trader_initialize. payk. Qed.
#[local] Hint Resolve cost_trader_initialize : cost.
Lemma cost_trader_trade (e : Env) (c : option Addr) (self sender tok pool : Addr)
    (amount max_spread dl ask_min max_fee : option Z) : cost 24 (z_trader_trade e c self sender tok pool amount max_spread dl ask_min max_fee).
Proof. unfold z_trader_trade. payk. Qed.
#[local] Hint Resolve cost_trader_trade : cost.
Lemma cost_trader_transfer (e : Env) (c : option Addr) (self sender rcpt amt : Z) (tok : option Addr) : cost 6 (z_trader_transfer e c self sender rcpt amt tok).
Proof. unfold z_trader_transfer. match goal with |- context [match ?x with Some _ => ?a | None => _ end] => match type of a with list Key => destruct x end end; payk. Qed.
#[local] Hint Resolve cost_trader_transfer : cost.
Lemma cost_pool_update_config (e : Env) (c : option Addr) (self : Addr)
    (admin fee feerec maxslip maxspread maxref : option Z) : cost 5 (z_pool_update_config e c self admin fee feerec maxslip maxspread maxref).
Proof. unfold z_pool_update_config. match goal with |- context [match ?x with Some _ => ?a | None => _ end] => match type of a with list Key => destruct x end end; payk. Qed.
#[local] Hint Resolve cost_pool_update_config : cost.
Lemma cost_pool_update (e : Env) (c : option Addr) (self hash : Z) : cost 2 (z_pool_update e c self hash).
Proof. unfold z_pool_update. payk. Qed.
#[local] Hint Resolve cost_pool_update : cost.
Lemma cost_pool_upgrade (e : Env) (c : option Addr) (self hash defslip : Z) : cost 3 (z_pool_upgrade e c self hash defslip).
Proof. unfold z_pool_upgrade. payk. Qed.
#[local] Hint Resolve cost_pool_upgrade : cost.
Lemma cost_stable_upgrade (e : Env) (c : option Addr) (self hash : Z) : cost 1 (z_stable_upgrade e c self hash).
Proof. unfold z_stable_upgrade. payk. Qed.
#[local] Hint Resolve cost_stable_upgrade : cost.
Lemma cost_stake_update (e : Env) (c : option Addr) (self hash : Z) : cost 2 (z_stake_update e c self hash).
Proof. unfold z_stake_update. payk. Qed.
#[local] Hint Resolve cost_stake_update : cost.
Lemma cost_rewards_update (e : Env) (c : option Addr) (self hash : Z) : cost 2 (z_rewards_update e c self hash).
Proof. unfold z_rewards_update. payk. Qed.
#[local] Hint Resolve cost_rewards_update : cost.
Lemma cost_vest_update (e : Env) (c : option Addr) (self hash : Z) : cost 2 (z_vest_update e c self hash).
Proof. unfold z_vest_update. payk. Qed.
#[local] Hint Resolve cost_vest_update : cost.
Lemma cost_fact_update_whitelist (e : Env) (c : option Addr) (self sender : Addr) (add rm : list Addr) : cost 3 (z_fact_update_whitelist e c self sender add rm).
Proof. unfold z_fact_update_whitelist. payk. Qed.
#[local] Hint Resolve cost_fact_update_whitelist : cost.
Lemma cost_fact_update_hashes (e : Env) (c : option Addr) (self : Addr) (lph stakeh tokh : option Z) : cost 3 (z_fact_update_hashes e c self lph stakeh tokh).
Proof. unfold z_fact_update_hashes. payk. Qed.
#[local] Hint Resolve cost_fact_update_hashes : cost.
Lemma cost_fact_update (e : Env) (c : option Addr) (self hash stabh : Z) : cost 3 (z_fact_update e c self hash stabh).
Proof. unfold z_fact_update. payk. Qed.
#[local] Hint Resolve cost_fact_update : cost.
Lemma cost_hop_update (e : Env) (c : option Addr) (self hash : Z) : cost 1 (z_hop_update e c self hash).
Proof. unfold z_hop_update. payk. Qed.
#[local] Hint Resolve cost_hop_update : cost.
Lemma cost_stable_update_config (self sender : Addr)
    (admin fee feerec maxslip maxspread : option Z) : cost 2 (z_stable_update_config self sender admin fee feerec maxslip maxspread).
Proof. unfold z_stable_update_config. payk. Qed.
#[local] Hint Resolve cost_stable_update_config : cost.
Lemma cost_hop_swaps e self f u ops : forall a x d z, cost (22 * length ops) (z_hop_swaps e self f u ops a x d z).
Proof.
  induction ops as [|o ops IH]; intros a x d z; [apply (cost_le 0); [apply cost_ret|lia]|]. cbn [z_hop_swaps length].
  apply (cost_bind 3 (19 + 22 * length ops)); [auto with cost|lia|intros p].
  apply (cost_bind 19 (22 * length ops)); [auto with cost|lia|intros r]. apply IH.
Qed.
Lemma cost_hop_swap e c self u ops ms a dl mf : cost (2 + 22 * length ops) (z_hop_swap e c self u ops ms a dl mf).
Proof.
  unfold z_hop_swap. set (n := 22 * length ops).
  apply (cost_bind 0 (2 + n)); [prim|lia|intros _]. apply (cost_bind 1 (1 + n)); [prim|lia|intros _].
  apply (cost_bind 1 n); [prim|lia|intros _]. apply (cost_bind 0 n); [prim|lia|intros _]. apply (cost_bind 0 n); [prim|lia|intros _].
  apply (cost_bind 0 n); [prim|lia|intros _]. apply (cost_bind 0 n); [prim|lia|intros h]. apply cost_hop_swaps.
Qed.
Lemma cost_drop {A} n (m : TST A) : cost n m -> cost n (z_drop m).
Proof. intros H. unfold z_drop. apply (cost_bind n 0); [exact H|lia|intros; apply cost_ret]. Qed.

(** the calls without a loop *)
Definition looping (k : Call) : bool :=
  match k with CWithdrawRewards _ _ | CVestCreate _ _ | CHopSwap _ _ _ _ _ _ _ => true | _ => false end.
Theorem cost_zexec e k : looping k = false -> cost 30 (zexec e k).
Proof.
  intros L. destruct k; try discriminate L; cbn [zexec];
    try match goal with |- cost _ (match ?t with _ => _ end) => destruct t end;
    try apply cost_drop; eapply cost_le; try solve [prim]; lia.
Qed.
