(** Properties of the records of all entry points at once.  The section states, for a property
    [G] of records that holds of the empty record and of compositions, which kinds of accesses
    the proof of each entry point uses; Props_Touch.v instantiates it. *)
From Coq Require Import ZArith List Bool Lia.
From Verif Require Import Base FMap Decimal Curve World Token Stake Pool Stable Rewards Vest Factory Router System.
From Verif Require Import Touch TouchErase Life TouchCover TouchGrow LifeLemmas.
Import ListNotations.
Open Scope list_scope.
Open Scope Z_scope.

(** entries the contracts extend whenever they read or write them *)
Definition plain (k : Key) : bool :=
  match k with YInst | YCurve | YDistr | YAdj _ | YTotal => false | _ => true end.
Definition trio (k : Key) : bool := match k with YCurve | YDistr | YAdj _ => true | _ => false end.

(** a record surely contains an access *)
Lemma em_r {A B} x (m : TST A) (k : A -> TST B) : logs (fun _ => True) m -> (forall a, emits x (k a)) -> emits x (mbind m k).
Proof.
  intros H K w l. unfold mbind. specialize (H w l). destruct (m (w, l)) as [[a [w1 l1]]|]; auto.
  destruct H as (D1 & -> & _). specialize (K a w1 (l ++ D1)). destruct (k a (w1, l ++ D1)) as [[b [w2 l2]]|]; auto.
  destruct K as (D2 & -> & H2). exists (D1 ++ D2). rewrite app_assoc. split; auto. apply in_or_app. auto.
Qed.
Lemma em_l {A B} x (m : TST A) (k : A -> TST B) : emits x m -> (forall a, logs (fun _ => True) (k a)) -> emits x (mbind m k).
Proof.
  intros H K w l. unfold mbind. specialize (H w l). destruct (m (w, l)) as [[a [w1 l1]]|]; auto.
  destruct H as (D1 & -> & H1). specialize (K a w1 (l ++ D1)). destruct (k a (w1, l ++ D1)) as [[b [w2 l2]]|]; auto.
  destruct K as (D2 & -> & _). exists (D1 ++ D2). rewrite app_assoc. split; auto. apply in_or_app. auto.
Qed.
Lemma em_note x D : In x D -> emits x (tnote D).
Proof. intros H w l. unfold tnote. cbn. eauto. Qed.
Lemma touches_logs {A} (m : TST A) m0 : touches m m0 -> logs (fun _ => True) m.
Proof.
  intros T w l. specialize (T w l). destruct (m0 w) as [[a w']|]; [destruct T as (D & ->); eauto | now rewrite T].
Qed.

Lemma asked_vest l : forall v k, In k (asked v l) -> exists u i, k = YVest u i.
Proof.
  induction l as [|[u c] tl IH]; cbn [asked]; intros v k I; [contradiction|].
  apply in_app_or in I as [I|I]; [|eauto]. apply in_map_iff in I as (i & <- & _). eauto.
Qed.
Lemma created_plain l : forall v, forallb plain (created v l) = true.
Proof. induction l as [|[u c] tl IH]; simpl; auto. Qed.
Ltac logT := first [eapply touches_logs; solve [auto with touch]
  | intros ? ?; unfold tnote, come, seen, instP, got, wrote, peek, looks, puts; cbn; eexists; split; [reflexivity | exact I]].
Ltac logTs := cbv zeta; lazymatch goal with
  | |- logs _ (mbind _ _) => apply (lg_bind (fun _ => True)); [exact (fun _ _ _ _ => I) | logTs | intros ?; logTs]
  | |- logs _ (match ?t with _ => _ end) => destruct t; logTs
  | |- _ => solve [logT] end.
Ltac em1 := cbv zeta; lazymatch goal with
  | |- emits _ (mbind (z_put_stake _ _ _) _) => apply em_l; [unfold z_put_stake | intros ?; solve [logTs]]
  | |- emits (mkT ?t _ _) (mbind (z_balance ?t _) _) => apply em_l; [unfold z_balance | intros ?; solve [logTs]]
  | |- emits (mkT ?t _ _) (mbind (come ?t) _) => apply em_l; [unfold come | intros ?; solve [logTs]]
  | |- emits _ (mbind _ _) => apply em_r; [solve [logT] | intros ?]
  | |- emits _ (z_put_pool _ _ _) => unfold z_put_pool
  | |- emits _ (z_put_stable _ _ _) => unfold z_put_stable
  | |- emits _ (z_put_rewards _ _ _ _) => unfold z_put_rewards
  | |- emits _ (z_put_fact _ _ _) => unfold z_put_fact
  | |- emits _ (z_put_hop _ _ _) => unfold z_put_hop
  | |- emits _ (z_put_trader _ _ _) => unfold z_put_trader
  | |- emits _ (wrote _ _) => apply em_note; simpl; solve [auto 14]
  | |- emits _ (tnote _) => apply em_note; simpl; solve [auto 14]
  end.
Ltac em := repeat em1.

Create HintDb lgd.
Section Kinds.
Variable G : list Touch -> Prop.
Hypothesis G0 : G [].
Hypothesis GA : forall D1 D2, G D1 -> G D2 -> G (D1 ++ D2).
Hypothesis Hcome : forall c, G [mkT c YInst Look; mkT c YInst (Bump TI)].
Hypothesis HinstP : forall c, G [mkT c YInst Look; mkT c YInst (Bump TP)].
Hypothesis Hgot : forall c k, plain k = true -> G [mkT c k Look; mkT c k (Bump TP)].
Hypothesis Hput : forall c k, plain k = true -> G [mkT c k Put; mkT c k (Bump TP)].
Hypothesis Hpeek : forall c k, plain k = true -> G [mkT c k Peek].
Hypothesis Htok : forall t u, G [mkT t (YBal u) Peek; mkT t (YBal u) Put; mkT t (YBal u) (Bump TP)].
Hypothesis Htgot : forall c, G [mkT c YTotal Look; mkT c YTotal (Bump TP)].
Hypothesis Htput : forall c, G [mkT c YTotal Put; mkT c YTotal (Bump TP)].
Hypothesis Hrlook : forall c k, trio k = true -> G [mkT c k Look].
Hypothesis Hrput : forall c k, trio k = true -> G [mkT c k Put].
Hypothesis Hhas : forall c u i, G [mkT c (YVest u i) Has].
Hypothesis Hseen : forall c, G [mkT c YInst Look].
Hypothesis Hdeploy : forall c, G [mkT c YInst Put].
Hypothesis Howe : forall c (m : TST unit), emits (mkT c YInit (Bump TP)) m -> logs G m ->
  logs G (mbind (tnote [mkT c YInit Look]) (fun _ => m)).
Hypothesis Howeh : forall c a (m : TST unit), emits (mkT c (YHist a) (Bump TP)) m -> logs G m ->
  logs G (mbind (tnote [mkT c (YHist a) Look]) (fun _ => m)).
Hypothesis Howed : forall t (k : Z -> TST unit), (forall d, emits (mkT t YInst (Bump TI)) (k d)) -> (forall d, logs G (k d)) ->
  logs G (mbind (z_decimals t) k).

Lemma lg_flat {X} (f : X -> list Touch) l : (forall x, In x l -> G (f x)) -> G (flat_map f l).
Proof. induction l as [|x tl IH]; simpl; intros H; [exact G0 | apply GA; auto]. Qed.
Lemma lg_map {X} (f : X -> Touch) l : (forall x, In x l -> G [f x]) -> G (map f l).
Proof. induction l as [|x tl IH]; simpl; intros H; [exact G0 | apply (GA [f x]); auto]. Qed.
Definition plains (ks : list Key) : bool := forallb plain ks.
Definition trios (ks : list Key) : bool := forallb trio ks.
Lemma lg_come c : logs G (come c).
Proof. apply lg_note, Hcome. Qed.
Lemma lg_instP c : logs G (instP c).
Proof. apply lg_note, HinstP. Qed.
Lemma lg_seen c : logs G (seen c).
Proof. apply lg_note, Hseen. Qed.
Lemma lg_got c ks : plains ks = true -> logs G (got c ks).
Proof. unfold plains. rewrite forallb_forall. intros H. apply lg_note, lg_flat. intros k I. apply Hgot; auto. Qed.
Lemma lg_wrote c ks : plains ks = true -> logs G (wrote c ks).
Proof. unfold plains. rewrite forallb_forall. intros H. apply lg_note, lg_flat. intros k I. apply Hput; auto. Qed.
Lemma lg_peek c ks : plains ks = true -> logs G (peek c ks).
Proof. unfold plains. rewrite forallb_forall. intros H. apply lg_note, lg_map. intros k I. apply Hpeek; auto. Qed.
Lemma lg_looks c ks : trios ks = true -> logs G (looks c ks).
Proof. unfold trios. rewrite forallb_forall. intros H. apply lg_note, lg_map. intros k I. apply Hrlook; auto. Qed.
Lemma lg_puts c ks : trios ks = true -> logs G (puts c ks).
Proof. unfold trios. rewrite forallb_forall. intros H. apply lg_note, lg_map. intros k I. apply Hrput; auto. Qed.
Lemma lg_gott c ks : plains (tl ks) = true -> hd YInit ks = YTotal -> logs G (got c ks).
Proof.
  destruct ks as [|k tl]; simpl; [discriminate|]. intros H ->. apply lg_note. simpl. apply (GA [_; _]); auto.
  unfold plains in H. rewrite forallb_forall in H. apply lg_flat. intros k I. apply Hgot; auto.
Qed.
Lemma lg_gotp c ks : forallb (fun k => plain k || match k with YTotal => true | _ => false end) ks = true -> logs G (got c ks).
Proof.
  rewrite forallb_forall. intros H. apply lg_note, lg_flat. intros k I. specialize (H k I). apply orb_true_iff in H as [H|H]; auto.
  destruct k; try discriminate. apply Htgot.
Qed.
Lemma lg_wrotep c ks : forallb (fun k => plain k || match k with YTotal => true | _ => false end) ks = true -> logs G (wrote c ks).
Proof.
  rewrite forallb_forall. intros H. apply lg_note, lg_flat. intros k I. specialize (H k I). apply orb_true_iff in H as [H|H]; auto.
  destruct k; try discriminate. apply Htput.
Qed.
Lemma lg_deploy a k : logs G (z_deploy a k).
Proof. apply lg_bind; auto; [now apply lg_tf|]. intros _. apply lg_note, Hdeploy. Qed.
Lemma lg_upd_tok t f us : logs G (z_upd_tok t f us).
Proof.
  unfold z_upd_tok. apply lg_bind; auto; [now apply lg_tf|]. intros _. apply lg_bind; auto; [apply lg_come|]. intros _.
  apply lg_note, lg_flat. auto.
Qed.
Ltac one := first
  [ apply lg_tf; exact G0 | apply lg_ret; exact G0 | apply lg_lift; exact G0 | apply lg_guard; exact G0 | apply lg_fail
  | apply lg_come | apply lg_instP | apply lg_upd_tok | apply lg_deploy
  | apply lg_got; reflexivity | apply lg_wrote; reflexivity | apply lg_peek; reflexivity | apply lg_looks; reflexivity | apply lg_puts; reflexivity
  | apply lg_gotp; reflexivity | apply lg_wrotep; reflexivity | apply lg_seen ].
Ltac lg := repeat first
  [ progress cbv zeta
  | lazymatch goal with |- logs _ (match ?t with _ => _ end) => destruct t end
  | one
  | apply lg_bind; [exact GA | | intros ?] ].
Lemma lg_balance t a : logs G (z_balance t a).
Proof.
  unfold z_balance. lg. apply (lg_peek t [YBal a]). reflexivity.
Qed.
Lemma lg_decimals t : logs G (z_decimals t).
Proof. unfold z_decimals. lg. Qed.

Lemma lg_mint e c t to a : logs G (z_mint e c t to a).
Proof. unfold z_mint. lg. Qed.
Lemma lg_set_admin e c t a : logs G (z_set_admin e c t a).
Proof. unfold z_set_admin. lg. Qed.
Lemma lg_approve e c t f s a x : logs G (z_approve e c t f s a x).
Proof. unfold z_approve. lg. Qed.
Lemma lg_transfer e c t f to a : logs G (z_transfer e c t f to a).
Proof. unfold z_transfer. lg. Qed.
Lemma lg_transfer_from e c t s f to a : logs G (z_transfer_from e c t s f to a).
Proof. unfold z_transfer_from. lg. Qed.
Lemma lg_burn e c t f a : logs G (z_burn e c t f a).
Proof. unfold z_burn. lg. Qed.
Lemma lg_burn_from e c t s f a : logs G (z_burn_from e c t s f a).
Proof. unfold z_burn_from. lg. Qed.
Lemma lg_tok_deploy t a d : logs G (z_tok_deploy t a d).
Proof. unfold z_tok_deploy. lg. Qed.
#[local] Hint Resolve lg_balance lg_transfer lg_mint lg_burn lg_tok_deploy : lgd.
Ltac owe := lazymatch goal with
  | |- logs _ (mbind (tnote [mkT _ YInit Look]) _) => apply Howe; [ | ]
  | |- logs _ (mbind (tnote [mkT _ (YHist _) Look]) _) => apply Howeh; [ | ]
  end.
Ltac lh1 := cbv zeta; lazymatch goal with
  | |- logs _ (match ?t with _ => _ end) => destruct t
  | |- logs _ (mbind (tnote [mkT _ _ Look]) _) => fail
  | |- logs _ (mbind _ _) => apply lg_bind; [exact GA | | intros ?]
  | |- logs _ (tf _) => apply lg_tf; exact G0
  | |- logs _ (mret _) => apply lg_ret; exact G0
  | |- logs _ (mlift _) => apply lg_lift; exact G0
  | |- logs _ (mguard _ _) => apply lg_guard; exact G0
  | |- logs _ (mfail _) => apply lg_fail
  | |- logs _ (come _) => apply lg_come
  | |- logs _ (instP _) => apply lg_instP
  | |- logs _ (seen _) => apply lg_seen
  | |- logs _ (got _ _) => first [apply lg_got; reflexivity | apply lg_gotp; reflexivity]
  | |- logs _ (wrote _ _) => first [apply lg_wrote; reflexivity | apply lg_wrotep; reflexivity]
  | |- logs _ (peek _ _) => apply lg_peek; reflexivity
  | |- logs _ (looks _ _) => apply lg_looks; reflexivity
  | |- logs _ (puts _ _) => apply lg_puts; reflexivity
  | |- logs _ (z_deploy _ _) => apply lg_deploy
  | |- logs _ (z_decimals _) => apply lg_decimals
  | |- logs _ (z_get_pool _ _) => unfold z_get_pool
  | |- logs _ (z_get_stake _ _) => unfold z_get_stake
  | |- logs _ (z_get_rewards _ _ _) => unfold z_get_rewards
  | |- logs _ (z_get_vest _ _) => unfold z_get_vest
  | |- logs _ (z_get_fact _ _) => unfold z_get_fact
  | |- logs _ (z_get_trader _ _) => unfold z_get_trader
  | |- logs _ (z_put_pool _ _ _) => unfold z_put_pool
  | |- logs _ (z_put_stable _ _ _) => unfold z_put_stable
  | |- logs _ (z_put_stake _ _ _) => unfold z_put_stake
  | |- logs _ (z_put_rewards _ _ _ _) => unfold z_put_rewards
  | |- logs _ (z_put_vest _ _ _) => unfold z_put_vest
  | |- logs _ (z_put_fact _ _ _) => unfold z_put_fact
  | |- logs _ (z_put_hop _ _ _) => unfold z_put_hop
  | |- logs _ (z_put_trader _ _ _) => unfold z_put_trader
  | |- _ => solve [auto 1 with lgd nocore]
  end.
Ltac lh := repeat lh1.
Ltac lhd := repeat (lazymatch goal with |- logs _ (mbind (z_decimals _) _) => fail | |- _ => lh1 end).

Lemma lg_stake_initialize (self admin lp minbond minreward manager owner maxc : Z) : logs G (z_stake_initialize self admin lp minbond minreward manager owner maxc).
Proof. unfold z_stake_initialize. lh. Qed.
#[local] Hint Resolve lg_stake_initialize : lgd.
Lemma lg_stake_bond (e : Env) (c : option Addr) (self sender tokens : Z) : logs G (z_stake_bond e c self sender tokens).
Proof. unfold z_stake_bond. lh. Qed.
#[local] Hint Resolve lg_stake_bond : lgd.
Lemma lg_stake_unbond (e : Env) (c : option Addr) (self sender amt ts : Z) : logs G (z_stake_unbond e c self sender amt ts).
Proof. unfold z_stake_unbond. lh. Qed.
#[local] Hint Resolve lg_stake_unbond : lgd.
Lemma lg_stake_create_flow (e : Env) (c : option Addr) (self sender asset : Z) : logs G (z_stake_create_flow e c self sender asset).
Proof. unfold z_stake_create_flow. lh. Qed.
#[local] Hint Resolve lg_stake_create_flow : lgd.
Lemma lg_stake_distribute (e : Env) (c : option Addr) (self sender amt token : Z) : logs G (z_stake_distribute e c self sender amt token).
Proof. unfold z_stake_distribute. lh. owe; [em | lh]. Qed.
#[local] Hint Resolve lg_stake_distribute : lgd.
Lemma lg_pay_rewards e self sender s t b l : logs G (z_pay_rewards e self sender s t b l).
Proof. induction l as [|x tl IH]; simpl z_pay_rewards; lh. Qed.
#[local] Hint Resolve lg_pay_rewards : lgd.
Lemma lg_stake_withdraw_rewards (e : Env) (self sender : Addr) : logs G (z_stake_withdraw_rewards e self sender).
Proof. unfold z_stake_withdraw_rewards. lh. Qed.
#[local] Hint Resolve lg_stake_withdraw_rewards : lgd.
Lemma lg_deploy_share (e : Env) (self ta tb dec : Z) : logs G (z_deploy_share e self ta tb dec).
Proof. unfold z_deploy_share. lh. Qed.
#[local] Hint Resolve lg_deploy_share : lgd.
Lemma lg_deploy_stake_of (e : Env) (self admin share minbond minreward manager owner maxc : Z) : logs G (z_deploy_stake_of e self admin share minbond minreward manager owner maxc).
Proof. unfold z_deploy_stake_of. lh. Qed.
#[local] Hint Resolve lg_deploy_stake_of : lgd.
Lemma lg_pool_initialize (e : Env) (self : Addr) (i : PoolInit) (factory dec defslip maxfee : Z) : logs G (z_pool_initialize e self i factory dec defslip maxfee).
Proof. unfold z_pool_initialize. lh. owe; [em | lh]. Qed.
#[local] Hint Resolve lg_pool_initialize : lgd.
Lemma lg_mint_shares (e : Env) (self to amt : Z) : logs G (z_mint_shares e self to amt).
Proof. unfold z_mint_shares. lh. Qed.
#[local] Hint Resolve lg_mint_shares : lgd.
Lemma lg_burn_shares (e : Env) (self amt : Z) : logs G (z_burn_shares e self amt).
Proof. unfold z_burn_shares. lh. Qed.
#[local] Hint Resolve lg_burn_shares : lgd.
Lemma lg_new_share_total (e : Env) (self a b bala balb : Z) (p : Pool) : logs G (z_new_share_total e self a b bala balb p).
Proof. unfold z_new_share_total. lh. Qed.
#[local] Hint Resolve lg_new_share_total : lgd.
Lemma lg_pool_provide (e : Env) (c : option Addr) (self sender : Addr)
    (da mina db minb custom dl : option Z) : logs G (z_pool_provide e c self sender da mina db minb custom dl).
Proof. unfold z_pool_provide. lh. Qed.
#[local] Hint Resolve lg_pool_provide : lgd.
Lemma lg_do_swap (e : Env) (self sender offer amt : Z) (ask_min max_spread max_fee : option Z) : logs G (z_do_swap e self sender offer amt ask_min max_spread max_fee).
Proof. unfold z_do_swap. lh. Qed.
#[local] Hint Resolve lg_do_swap : lgd.
Lemma lg_pool_swap (e : Env) (c : option Addr) (self sender offer amt : Z)
    (ask_min max_spread dl max_fee : option Z) : logs G (z_pool_swap e c self sender offer amt ask_min max_spread dl max_fee).
Proof. unfold z_pool_swap. lh. Qed.
#[local] Hint Resolve lg_pool_swap : lgd.
Lemma lg_pool_withdraw (e : Env) (c : option Addr) (self sender share mina minb : Z) (dl : option Z) : logs G (z_pool_withdraw e c self sender share mina minb dl).
Proof. unfold z_pool_withdraw. lh. Qed.
#[local] Hint Resolve lg_pool_withdraw : lgd.
Lemma lg_stable_initialize (e : Env) (self : Addr) (i : PoolInit) (factory amp maxfee : Z) : logs G (z_stable_initialize e self i factory amp maxfee).
Proof. unfold z_stable_initialize. lh. owe; [em | lh]. Qed.
#[local] Hint Resolve lg_stable_initialize : lgd.
Lemma lg_stable_mint_shares (e : Env) (self to amt : Z) : logs G (z_stable_mint_shares e self to amt).
Proof. unfold z_stable_mint_shares. lh. Qed.
#[local] Hint Resolve lg_stable_mint_shares : lgd.
Lemma lg_stable_burn_shares (e : Env) (self amt : Z) : logs G (z_stable_burn_shares e self amt).
Proof. unfold z_stable_burn_shares. lh. Qed.
#[local] Hint Resolve lg_stable_burn_shares : lgd.
Lemma lg_stable_provide (e : Env) (c : option Addr) (self sender da db : Z)
    (custom dl min_shares : option Z) : logs G (z_stable_provide e c self sender da db custom dl min_shares).
Proof. unfold z_stable_provide. lhd. apply Howed; intros ?; [em|]. lhd. apply Howed; intros ?; [em|]. lh. Qed.
#[local] Hint Resolve lg_stable_provide : lgd.
Lemma lg_stable_do_swap (e : Env) (self sender offer amt : Z) (ask_min max_spread max_fee : option Z) : logs G (z_stable_do_swap e self sender offer amt ask_min max_spread max_fee).
Proof. unfold z_stable_do_swap. lh. Qed.
#[local] Hint Resolve lg_stable_do_swap : lgd.
Lemma lg_stable_swap (e : Env) (c : option Addr) (self sender offer amt : Z)
    (ask_min max_spread dl max_fee : option Z) : logs G (z_stable_swap e c self sender offer amt ask_min max_spread dl max_fee).
Proof. unfold z_stable_swap. lh. Qed.
#[local] Hint Resolve lg_stable_swap : lgd.
Lemma lg_stable_withdraw (e : Env) (c : option Addr) (self sender share mina minb : Z) (dl : option Z) : logs G (z_stable_withdraw e c self sender share mina minb dl).
Proof. unfold z_stable_withdraw. lh. Qed.
#[local] Hint Resolve lg_stable_withdraw : lgd.
Lemma lg_rewards_initialize (self admin staking token maxc minreward minbond : Z) : logs G (z_rewards_initialize self admin staking token maxc minreward minbond).
Proof. unfold z_rewards_initialize. lh. owe; [|lh]. do 3 em1. unfold z_put_rewards. em1. apply em_l; [em | intros; logTs]. Qed.
#[local] Hint Resolve lg_rewards_initialize : lgd.
Lemma lg_update_rewards (self : Addr) (r : Rewards) (u : Addr) (p0 p1 : Z) : logs G (z_update_rewards self r u p0 p1).
Proof. unfold z_update_rewards. destruct (p0 =? p1); lh. Qed.
#[local] Hint Resolve lg_update_rewards : lgd.
Lemma lg_rewards_add_user (e : Env) (c : option Addr) (self user : Addr) (b : Bonding) : logs G (z_rewards_add_user e c self user b).
Proof. unfold z_rewards_add_user. lh. Qed.
#[local] Hint Resolve lg_rewards_add_user : lgd.
Lemma lg_rewards_bond (e : Env) (c : option Addr) (self sender : Addr) (b : Bonding) : logs G (z_rewards_bond e c self sender b).
Proof. unfold z_rewards_bond. lh. Qed.
#[local] Hint Resolve lg_rewards_bond : lgd.
Lemma lg_rewards_withdraw (e : Env) (c : option Addr) (self sender : Addr) (b : Bonding) : logs G (z_rewards_withdraw e c self sender b).
Proof. unfold z_rewards_withdraw. lh. Qed.
#[local] Hint Resolve lg_rewards_withdraw : lgd.
Lemma lg_rewards_unbond (e : Env) (c : option Addr) (self sender : Addr) (b : Bonding) (removed : Z) : logs G (z_rewards_unbond e c self sender b removed).
Proof. unfold z_rewards_unbond. lh. Qed.
#[local] Hint Resolve lg_rewards_unbond : lgd.
Lemma lg_rewards_distribute (e : Env) (c : option Addr) (self total_staked : Z) : logs G (z_rewards_distribute e c self total_staked).
Proof. unfold z_rewards_distribute. lh. Qed.
#[local] Hint Resolve lg_rewards_distribute : lgd.
Lemma lg_rewards_fund (e : Env) (c : option Addr) (self start duration amount : Z) : logs G (z_rewards_fund e c self start duration amount).
Proof. unfold z_rewards_fund. lh. Qed.
#[local] Hint Resolve lg_rewards_fund : lgd.
Lemma lg_vest_initialize (self admin token maxc : Z) (minter : option (Addr * Z)) : logs G (z_vest_initialize self admin token maxc minter).
Proof. unfold z_vest_initialize. lh. Qed.
#[local] Hint Resolve lg_vest_initialize : lgd.
Lemma lg_vest_create (e : Env) (c : option Addr) (self : Addr) (l : list (Addr * curve)) : logs G (z_vest_create e c self l).
Proof. unfold z_vest_create. lh. all: first [apply lg_note, lg_map; intros k I; apply asked_vest in I as (u & j & ->); apply Hhas | apply lg_wrote; apply created_plain]. Qed.
#[local] Hint Resolve lg_vest_create : lgd.
Lemma lg_vest_claim (e : Env) (c : option Addr) (self sender i : Addr) : logs G (z_vest_claim e c self sender i).
Proof. unfold z_vest_claim. lh. Qed.
#[local] Hint Resolve lg_vest_claim : lgd.
Lemma lg_vest_burn (e : Env) (c : option Addr) (self sender amt : Z) : logs G (z_vest_burn e c self sender amt).
Proof. unfold z_vest_burn. lh. Qed.
#[local] Hint Resolve lg_vest_burn : lgd.
Lemma lg_vest_mint (e : Env) (c : option Addr) (self sender amt : Z) : logs G (z_vest_mint e c self sender amt).
Proof. unfold z_vest_mint. lh. Qed.
#[local] Hint Resolve lg_vest_mint : lgd.
Lemma lg_vest_update_minter (e : Env) (c : option Addr) (self sender new : Addr) : logs G (z_vest_update_minter e c self sender new).
Proof. unfold z_vest_update_minter. lh. Qed.
#[local] Hint Resolve lg_vest_update_minter : lgd.
Lemma lg_vest_update_capacity (e : Env) (c : option Addr) (self sender cap : Z) : logs G (z_vest_update_capacity e c self sender cap).
Proof. unfold z_vest_update_capacity. lh. Qed.
#[local] Hint Resolve lg_vest_update_capacity : lgd.
Lemma lg_hop_initialize (self admin factory : Addr) : logs G (z_hop_initialize self admin factory).
Proof. unfold z_hop_initialize. lh. owe; [em | lh]. Qed.
#[local] Hint Resolve lg_hop_initialize : lgd.
Lemma lg_fact_initialize (e : Env) (self admin lph stabh stakeh tokh : Z) (white : list Addr) (lpdec : Z) : logs G (z_fact_initialize e self admin lph stabh stakeh tokh white lpdec).
Proof. unfold z_fact_initialize. lh. owe; [em | lh]. Qed.
#[local] Hint Resolve lg_fact_initialize : lgd.
Lemma lg_fact_create (e : Env) (c : option Addr) (self sender : Addr) (i : PoolInit) (ty : PoolType)
    (amp : option Z) (defslip maxfee : Z) : logs G (z_fact_create e c self sender i ty amp defslip maxfee).
Proof. unfold z_fact_create. destruct ty; lh. Qed.
#[local] Hint Resolve lg_fact_create : lgd.
Lemma lg_fact_pool_by_pair (self a b : Addr) : logs G (z_fact_pool_by_pair self a b).
Proof. unfold z_fact_pool_by_pair. lh. Qed.
#[local] Hint Resolve lg_fact_pool_by_pair : lgd.
Lemma lg_any_swap (e : Env) (c : option Addr) (pool sender offer amt : Z)
    (ask_min max_spread dl max_fee : option Z) : logs G (z_any_swap e c pool sender offer amt ask_min max_spread dl max_fee).
Proof. unfold z_any_swap. lh. Qed.
#[local] Hint Resolve lg_any_swap : lgd.
Lemma lg_hop_swaps e self f u ops : forall a x d z, logs G (z_hop_swaps e self f u ops a x d z).
Proof.
  induction ops as [|o tl IH]; intros a x d z; simpl z_hop_swaps; [lh|].
  apply lg_bind; [exact GA | apply lg_fact_pool_by_pair | intros p]. apply lg_bind; [exact GA | apply lg_any_swap | intros r]. apply IH.
Qed.
#[local] Hint Resolve lg_hop_swaps : lgd.
Lemma lg_hop_swap (e : Env) (c : option Addr) (self rcpt : Addr) (ops : list SwapOp)
    (max_spread : option Z) (amt : Z) (dl max_fee : option Z) : logs G (z_hop_swap e c self rcpt ops max_spread amt dl max_fee).
Proof. unfold z_hop_swap. lh. Qed.
#[local] Hint Resolve lg_hop_swap : lgd.
Lemma lg_trader_initialize (e : Env) (c : option Addr) (self admin ta tb out : Addr) : logs G (z_trader_initialize e c self admin ta tb out).
Proof. unfold z_trader_initialize. lh. owe; [em | lh]. Qed.
#[local] Hint Resolve lg_trader_initialize : lgd.
Lemma lg_trader_trade (e : Env) (c : option Addr) (self sender tok pool : Addr)
    (amount max_spread dl ask_min max_fee : option Z) : logs G (z_trader_trade e c self sender tok pool amount max_spread dl ask_min max_fee).
Proof. unfold z_trader_trade. lh. Qed.
#[local] Hint Resolve lg_trader_trade : lgd.
Lemma lg_trader_transfer (e : Env) (c : option Addr) (self sender rcpt amt : Z) (tok : option Addr) : logs G (z_trader_transfer e c self sender rcpt amt tok).
Proof. unfold z_trader_transfer. destruct tok; lh. Qed.
#[local] Hint Resolve lg_trader_transfer : lgd.
Lemma lg_pool_update_config (e : Env) (c : option Addr) (self : Addr)
    (admin fee feerec maxslip maxspread maxref : option Z) : logs G (z_pool_update_config e c self admin fee feerec maxslip maxspread maxref).
Proof. unfold z_pool_update_config. destruct admin; lh. Qed.
#[local] Hint Resolve lg_pool_update_config : lgd.
Lemma lg_pool_update (e : Env) (c : option Addr) (self hash : Z) : logs G (z_pool_update e c self hash).
Proof. unfold z_pool_update. lh. Qed.
#[local] Hint Resolve lg_pool_update : lgd.
Lemma lg_pool_upgrade (e : Env) (c : option Addr) (self hash defslip : Z) : logs G (z_pool_upgrade e c self hash defslip).
Proof. unfold z_pool_upgrade. lh. Qed.
#[local] Hint Resolve lg_pool_upgrade : lgd.
Lemma lg_stable_upgrade (e : Env) (c : option Addr) (self hash : Z) : logs G (z_stable_upgrade e c self hash).
Proof. unfold z_stable_upgrade. lh. Qed.
#[local] Hint Resolve lg_stable_upgrade : lgd.
Lemma lg_stake_update (e : Env) (c : option Addr) (self hash : Z) : logs G (z_stake_update e c self hash).
Proof. unfold z_stake_update. lh. Qed.
#[local] Hint Resolve lg_stake_update : lgd.
Lemma lg_rewards_update (e : Env) (c : option Addr) (self hash : Z) : logs G (z_rewards_update e c self hash).
Proof. unfold z_rewards_update. lh. Qed.
#[local] Hint Resolve lg_rewards_update : lgd.
Lemma lg_vest_update (e : Env) (c : option Addr) (self hash : Z) : logs G (z_vest_update e c self hash).
Proof. unfold z_vest_update. lh. Qed.
#[local] Hint Resolve lg_vest_update : lgd.
Lemma lg_fact_update_whitelist (e : Env) (c : option Addr) (self sender : Addr) (add rm : list Addr) : logs G (z_fact_update_whitelist e c self sender add rm).
Proof. unfold z_fact_update_whitelist. lh. Qed.
#[local] Hint Resolve lg_fact_update_whitelist : lgd.
Lemma lg_fact_update_hashes (e : Env) (c : option Addr) (self : Addr) (lph stakeh tokh : option Z) : logs G (z_fact_update_hashes e c self lph stakeh tokh).
Proof. unfold z_fact_update_hashes. lh. Qed.
#[local] Hint Resolve lg_fact_update_hashes : lgd.
Lemma lg_fact_update (e : Env) (c : option Addr) (self hash stabh : Z) : logs G (z_fact_update e c self hash stabh).
Proof. unfold z_fact_update. lh. Qed.
#[local] Hint Resolve lg_fact_update : lgd.
Lemma lg_hop_update (e : Env) (c : option Addr) (self hash : Z) : logs G (z_hop_update e c self hash).
Proof. unfold z_hop_update. lh. Qed.
#[local] Hint Resolve lg_hop_update : lgd.
Lemma lg_stable_update_config (self sender : Addr)
    (admin fee feerec maxslip maxspread : option Z) : logs G (z_stable_update_config self sender admin fee feerec maxslip maxspread).
Proof. unfold z_stable_update_config. lh. Qed.
#[local] Hint Resolve lg_stable_update_config : lgd.
Lemma lg_zdrop {A} (m : TST A) : logs G m -> logs G (z_drop m).
Proof. intros H. unfold z_drop. apply lg_bind; [exact GA | exact H | intros; apply lg_ret; exact G0]. Qed.
#[local] Hint Resolve lg_zdrop lg_set_admin lg_approve lg_transfer_from lg_burn_from : lgd.
Theorem lg_zexec e k : logs G (zexec e k).
Proof.
  destruct k; cbn [zexec]; [destruct k; first [apply lg_fail | apply lg_deploy] | ..]; solve [auto 3 with lgd nocore].
Qed.
(** calls that touch the share total of a pool *)
Definition of_total (k : Call) : bool :=
  match k with CPoolInit _ _ _ _ _ _ | CPoolProvide _ _ _ _ _ _ _ _ | CPoolWithdraw _ _ _ _ _ _ | CCreate _ _ _ _ _ _ _ => true | _ => false end.
Theorem lg_zexec_total e k : of_total k = false -> logs G (zexec e k).
Proof.
  destruct k; intros X; try discriminate X; clear X; cbn [zexec]; [destruct k; first [apply lg_fail | apply lg_deploy] | ..]; solve [auto 3 with lgd nocore].
Qed.
(** calls that leave an instance they touch unextended *)
Definition of_inst (k : Call) : bool :=
  match k with
  | CDeploy _ _ | CDeployTok _ _ _ | CPoolInit _ _ _ _ _ _ | CPoolUpdate _ _ | CPoolUpgrade _ _ _ | CStableInit _ _ _ _ _
  | CStakeUpdate _ _ | CRewInit _ _ _ _ _ _ _ | CRewUpdate _ _ | CVestUpdate _ _ | CFactInit _ _ _ _ _ _ _ _
  | CCreate _ _ _ _ _ _ _ | CFactUpdate _ _ _ | CTraderInit _ _ _ _ _ => true
  | _ => false end.
Theorem lg_zexec_inst e k : of_inst k = false -> logs G (zexec e k).
Proof.
  destruct k; intros X; try discriminate X; clear X; cbn [zexec]; solve [auto 3 with lgd nocore].
Qed.

End Kinds.
