(** Lifetimes of ledger entries: what the host does with the accesses recorded by Touch.v
    (state archival).  An entry carries the last ledger it lives in.  Touching an entry that is
    past it fails the transaction; anyone may extend a live entry or restore an archived one.
    [m] is the network's minimum time to live of a new persistent entry (instance entries are
    persistent entries).  Simplification: the network's maximum time to live is taken to be at
    least the 30 days the contracts ask for, so that no extension is cut short. *)
From Coq Require Import ZArith List Bool.
From Verif Require Import Base FMap World Token Stake Pool Rewards Vest Factory System Touch.
Import ListNotations.
Open Scope Z_scope.

Definition key_eqb (x y : Key) : bool :=
  match x, y with
  | YInst, YInst | YInit, YInit | YConfig, YConfig | YAdmin, YAdmin
  | YTotal, YTotal | YResA, YResA | YResB, YResB | YSlip, YSlip
  | YStaked, YStaked | YTotHist, YTotHist | YDists, YDists
  | YCurve, YCurve | YDistr, YDistr | YLps, YLps | YStab, YStab
  | YName, YName | YTPair, YTPair | YTOut, YTOut => true
  | YHist a, YHist b | YUser a, YUser b | YAdj a, YAdj b | YBal a, YBal b => a =? b
  | YVest a i, YVest b j | YPair a i, YPair b j => (a =? b) && (i =? j)
  | _, _ => false
  end.

(** Which entries a ledger of World.v stands for.  A contract writes all entries of its fixed
    keys when it is initialised; the others appear with the first use. *)
Definition present (w : World) (c : Addr) (k : Key) : bool :=
  match k with
  | YInst => fmem c (w_code w) || fmem c (w_tok w)
  | YInit => fmem c (w_pool w) || fmem c (w_stable w) || fmem c (w_rewards w) || fmem c (w_fact w)
             || fmem c (w_hop w) || fmem c (w_trader w)
  | YConfig => fmem c (w_pool w) || fmem c (w_stake w) || fmem c (w_rewards w) || fmem c (w_fact w)
  | YAdmin => fmem c (w_pool w) || fmem c (w_stake w) || fmem c (w_rewards w) || fmem c (w_vest w)
              || fmem c (w_trader w)
  | YTotal | YResA | YResB | YSlip => fmem c (w_pool w)
  | YStaked | YTotHist => fmem c (w_stake w)
  | YDists => match fget c (w_stake w) with
              | Some s => match s_dists s with [] => false | _ => true end | None => false end
  | YHist a => match fget c (w_stake w) with Some s => fmem a (s_rh s) | None => false end
  | YUser u => match fget c (w_stake w) with Some s => fmem u (s_users s) | None => false end
  | YCurve | YDistr => fmem c (w_rewards w)
  | YAdj u => match fget c (w_rewards w) with Some r => fmem u (r_adj r) | None => false end
  | YVest u i => match fget c (w_vest w) with Some v => fmem i (v_entries v u) | None => false end
  | YLps | YStab => fmem c (w_fact w)
  | YPair a b => match fget c (w_fact w) with
                 | Some f => match pair_get f a b with Some _ => true | None => false end | None => false end
  | YName | YTPair | YTOut => fmem c (w_trader w)
  | YBal u => match fget c (w_tok w) with Some k => fmem u (t_bal k) | None => false end
  end.

(** [Some v]: the entry exists and lives up to and including ledger [v]. *)
Definition Life : Type := Addr -> Key -> option Z.
Definition lset (L : Life) (c : Addr) (k : Key) (v : Z) : Life :=
  fun c' k' => if (c' =? c) && key_eqb k' k then Some v else L c' k'.

(** extend_ttl(threshold, extend_to) in ledger [seq] *)
Definition extended (seq : Z) (t : Ttl) (v : Z) : Z :=
  if v - seq <=? threshold_of t then Z.max v (seq + bump_of t) else v.

(** one access; [None]: the transaction fails *)
Definition touch (m seq : Z) (L : Life) (x : Touch) : option Life :=
  let '(mkT c k a) := x in
  match L c k with
  | Some v =>
      if v <? seq then None
      else match a with
           | Look | Has | Put => Some L
           | Bump t => Some (lset L c k (extended seq t v))
           | Peek => Some (lset L c k (extended seq TP v))
           end
  | None =>
      match a with
      | Look | Has | Peek => Some L
      | Put => Some (lset L c k (seq + m - 1))
      | Bump _ => None
      end
  end.

Fixpoint replay (m seq : Z) (L : Life) (D : list Touch) : option Life :=
  match D with
  | [] => Some L
  | x :: tl => match touch m seq L x with Some L' => replay m seq L' tl | None => None end
  end.

(** Runs with lifetimes. *)
Inductive LEvent :=
| LTx (e : Env) (k : Call)
| LTick (now seq : Z)
| LExtend (c : Addr) (k : Key) (v : Z)   (* somebody extends a live entry *)
| LRestore (c : Addr) (k : Key).         (* somebody restores an archived entry *)

Inductive lstep (H : Addr -> Salt -> Addr) (m : Z) (w : World) (L : Life) : LEvent -> World -> Life -> Prop :=
| ls_tx e k w' D L' : e_hash e = H -> zexec e k (w, []) = Ok (tt, (w', D)) ->
    replay m (w_seq w) L D = Some L' -> lstep H m w L (LTx e k) w' L'
| ls_tick n s : w_now w <= n <= U64_MAX -> w_seq w <= s <= U32_MAX ->
    lstep H m w L (LTick n s) (set_time w n s) L
| ls_extend c k v v' : L c k = Some v -> w_seq w <= v -> v <= v' ->
    lstep H m w L (LExtend c k v') w (lset L c k v')
| ls_restore c k v : L c k = Some v -> v < w_seq w ->
    lstep H m w L (LRestore c k) w (lset L c k (w_seq w + m - 1)).

Inductive lrun (H : Addr -> Salt -> Addr) (m : Z) : World -> Life -> list LEvent -> World -> Life -> Prop :=
| lr_nil w L : lrun H m w L [] w L
| lr_cons w L ev w1 L1 l w2 L2 : lstep H m w L ev w1 L1 -> lrun H m w1 L1 l w2 L2 -> lrun H m w L (ev :: l) w2 L2.

Definition no_life : Life := fun _ _ => None.
Definition lreach (H : Addr -> Salt -> Addr) (m : Z) (w : World) (L : Life) : Prop :=
  exists l, lrun H m w_empty no_life l w L.
