(** The steps of the catacomb as a relation with explicit states. *)
From stdpp Require Import gmap strings list.
From Coq Require Import Lia.
From RecordUpdate Require Import RecordSet.
From Verif Require Import Err Tomb Sum Catacomb CatacombSpec CatacombInv.
Import RecordSetNotations.

(** What a kill does to the tomb, the flag and the log. *)
Inductive kres (me : nat) (src : source) (e : option err) (t : tomb) : tomb -> bool -> event -> Prop :=
  | KrOk : t_panic (tomb_kill t (translate me e)) = false -> kres me src e t (tomb_kill t (translate me e)) false (EvKill src e)
  | KrPanic : t_panic (tomb_kill t (translate me e)) = true -> kres me src e t t true (EvKillPanic src e).
Definition gone_evs (b : nat) (v : vpc) (p : spc) : list event := match v, p with VGone, SGone => [EvGone b] | _, _ => [] end.

Inductive tr (me : nat) (s : state) : label -> state -> Prop :=
  | TInvoke i p : x_invs s !! i = None -> tr me s (LInvoke i p) (s <| x_invs ::= <[i := IValidate p]> |> <| x_log ::= app [EvInvoke i p] |>)
  | TInvalid i p e : x_invs s !! i = Some (IValidate p) -> validate p = Some e ->
      tr me s (LInv i) (s <| x_invs ::= <[i := IStop (p_init p) (EWrap MsgTrace e)]> |>)
  | TValid i p : x_invs s !! i = Some (IValidate p) -> validate p = None -> tr me s (LInv i) (s <| x_invs ::= <[i := ICas p]> |>)
  | TReused i p : x_invs s !! i = Some (ICas p) -> x_dirty s = true -> tr me s (LInv i) (s <| x_invs ::= <[i := IStop (p_init p) (EMsg MsgReused)]> |>)
  | TUsed i p : x_invs s !! i = Some (ICas p) -> x_dirty s = false ->
      tr me s (LInv i) (s <| x_invs ::= <[i := IAdd (p_init p)]> |> <| x_dirty := true |> <| x_log ::= app [EvUsed i] |>)
  | TInits i : x_invs s !! i = Some (IAdd []) -> tr me s (LInv i) (s <| x_invs ::= <[i := IListen]> |>)
  | TInitNil i ws : x_invs s !! i = Some (IAdd (None :: ws)) -> tr me s (LInv i) (s <| x_invs ::= <[i := IAdd ws]> |>)
  | TInit i w ws : x_invs s !! i = Some (IAdd (Some w :: ws)) ->
      tr me s (LInv i) (s <| x_invs ::= <[i := IAdd ws]> |> <| x_wg ::= Nat.add 2 |> <| x_next ::= S |> <| x_binds ::= <[x_next s := mkBind w VWait SSelect]> |>
                          <| x_log ::= app [EvBind (x_next s) w] |>)
  | TListen i : x_invs s !! i = Some IListen -> tr me s (LInv i) (s <| x_invs ::= <[i := IGo]> |> <| x_wg ::= S |> <| x_lis := LiSelect |>)
  | TGo i : x_invs s !! i = Some IGo ->
      tr me s (LInv i) (s <| x_invs ::= <[i := IReturned]> |> <| x_tomb := tomb_go (x_tomb s) |> <| x_work := WkRun |> <| x_log ::= app [EvInvoked i None; EvWork] |>)
  | TStopped i r : x_invs s !! i = Some (IStop [] r) -> tr me s (LInv i) (s <| x_invs ::= <[i := IReturned]> |> <| x_log ::= app [EvInvoked i (Some r)] |>)
  | TStopNil i ws r : x_invs s !! i = Some (IStop (None :: ws) r) -> tr me s (LInv i) (s <| x_invs ::= <[i := IStop ws r]> |>)
  | TStop i w ws r : x_invs s !! i = Some (IStop (Some w :: ws) r) ->
      tr me s (LInv i) (s <| x_invs ::= <[i := IStopWait w ws r]> |> <| x_tomb := wk_tomb w (x_tomb s) |> <| x_log ::= app (wk_evs (ByInvoke i) w) |>)
  | TStopWaited i w ws r e : x_invs s !! i = Some (IStopWait w ws r) -> worker_wait w s = Some e -> tr me s (LInv i) (s <| x_invs ::= <[i := IStop ws r]> |>)
  | TAdd i w : x_adds s !! i = None -> tr me s (LAdd i w) (s <| x_adds ::= <[i := ASelect w (x_dirty s)]> |> <| x_log ::= app [EvAddCall i w] |>)
  | THand i w : x_adds s !! i = Some (ASelect w true) -> x_lis s = LiSelect ->
      tr me s (LHand i) (s <| x_adds ::= <[i := AReturned]> |> <| x_lis := LiGot w |> <| x_log ::= app [EvAddRet i w None] |>)
  | TAddDying i w ch : x_adds s !! i = Some (ASelect w ch) -> t_dying (x_tomb s) = true -> tr me s (LAddDying i) (s <| x_adds ::= <[i := AKill w]> |>)
  | TAddKill i w : x_adds s !! i = Some (AKill w) ->
      tr me s (LAddKill i) (s <| x_adds ::= <[i := AWait w]> |> <| x_tomb := wk_tomb w (x_tomb s) |> <| x_log ::= app (wk_evs (ByAdd i) w) |>)
  | TAddWaited i w e : x_adds s !! i = Some (AWait w) -> worker_wait w s = Some e ->
      tr me s (LAddWaited i) (s <| x_adds ::= <[i := AReturned]> |>
        <| x_log ::= app [EvAddRet i w (match e with Some _ => trace e | None => err_dying me s end)] |>)
  | TKill e t p ev : honest me e s = true -> kres me FromClient e (x_tomb s) t p ev -> tr me s (LKill e) (s <| x_tomb := t |> <| x_log ::= app [ev] |>)
  | TAdded w : x_lis s = LiGot w ->
      tr me s LAdded (s <| x_lis := LiSelect |> <| x_wg ::= Nat.add 2 |> <| x_next ::= S |> <| x_binds ::= <[x_next s := mkBind w VWait SSelect]> |>
                        <| x_log ::= app [EvBind (x_next s) w] |>)
  | TLisDying n : x_lis s = LiSelect -> t_dying (x_tomb s) = true -> x_wg s = S n -> tr me s LLisDying (s <| x_lis := LiGone |> <| x_wg := n |>)
  | TReturn e : x_work s = WkRun -> honest me e s = true -> tr me s (LWorkRet (WkReturn e)) (s <| x_work := WkKill e |> <| x_log ::= app [EvWorkRet (WkReturn e)] |>)
  | TPanic v : x_work s = WkRun ->
      tr me s (LWorkRet (WkPanic v)) (s <| x_work := WkKill (Some (EMsg (MsgPanicked v))) |> <| x_log ::= app [EvWorkRet (WkPanic v)] |>)
  | TGoexit : x_work s = WkRun -> tr me s (LWorkRet WkGoexit) (s <| x_work := WkWg true |> <| x_log ::= app [EvWorkRet WkGoexit] |>)
  | TWorkKill e t p ev : x_work s = WkKill e -> kres me FromWork e (x_tomb s) t p ev ->
      tr me s LWorkKill (s <| x_work := WkWg false |> <| x_tomb := t |> <| x_crash := p |> <| x_log ::= app [ev] |>)
  | TWgWaited g : x_work s = WkWg g -> x_wg s = 0 -> tr me s LWgWaited (s <| x_work := if g then WkLost else WkDone |>)
  | TDone : x_work s = WkDone ->
      tr me s LTombDone (s <| x_work := WkOver |> <| x_tomb := (tomb_kill ((x_tomb s) <| t_alive := 0 |>) None) <| t_dead := true |> |> <| x_log ::= app [EvDead] |>)
  | TWaitErr b w p e : x_binds s !! b = Some (mkBind w VWait p) -> worker_wait w s = Some (Some e) -> tr me s (LWaitRet b) (s <| x_binds ::= <[b := mkBind w (VKill e) p]> |>)
  | TWaitNil b w p : x_binds s !! b = Some (mkBind w VWait p) -> worker_wait w s = Some None -> tr me s (LWaitRet b) (s <| x_binds ::= <[b := mkBind w VClose p]> |>)
  | TWaitKill b w p e t c ev : x_binds s !! b = Some (mkBind w (VKill e) p) -> kres me (FromWorker b) (Some e) (x_tomb s) t c ev ->
      tr me s (LWaitKill b) (s <| x_binds ::= <[b := mkBind w VClose p]> |> <| x_tomb := t |> <| x_crash := c |> <| x_log ::= app [ev] |>)
  | TClose b w p : x_binds s !! b = Some (mkBind w VClose p) -> tr me s (LWaitClose b) (s <| x_binds ::= <[b := mkBind w VWg p]> |>)
  | TWaitExit b w p n : x_binds s !! b = Some (mkBind w VWg p) -> x_wg s = S n ->
      tr me s (LWaitExit b) (s <| x_binds ::= <[b := mkBind w VGone p]> |> <| x_wg := n |> <| x_log ::= app (gone_evs b VGone p) |>)
  | TStopDying b w v : x_binds s !! b = Some (mkBind w v SSelect) -> t_dying (x_tomb s) = true -> tr me s (LStopDying b) (s <| x_binds ::= <[b := mkBind w v SKill]> |>)
  | TStopDone b w v : x_binds s !! b = Some (mkBind w v SSelect) -> v = VWg \/ v = VGone -> tr me s (LStopDone b) (s <| x_binds ::= <[b := mkBind w v SWg]> |>)
  | TStopKill b w v : x_binds s !! b = Some (mkBind w v SKill) ->
      tr me s (LStopKill b) (s <| x_binds ::= <[b := mkBind w v SWait]> |> <| x_tomb := wk_tomb w (x_tomb s) |> <| x_log ::= app (wk_evs (ByBind b) w) |>)
  | TStopJoin b w v e : x_binds s !! b = Some (mkBind w v SWait) -> worker_wait w s = Some e -> tr me s (LStopWaited b) (s <| x_binds ::= <[b := mkBind w v SWg]> |>)
  | TStopExit b w v n : x_binds s !! b = Some (mkBind w v SWg) -> x_wg s = S n ->
      tr me s (LStopExit b) (s <| x_binds ::= <[b := mkBind w v SGone]> |> <| x_wg := n |> <| x_log ::= app (gone_evs b v SGone) |>)
  | TEnd n e : x_ended s !! n = None -> honest me e s = true -> tr me s (LEnd n e) (s <| x_ended ::= <[n := e]> |> <| x_log ::= app [EvEnd n e] |>)
  | TWait e : tomb_wait (x_tomb s) = Some e -> tr me s LWait (s <| x_log ::= app [EvWait e] |>)
  | TErrDying : tr me s LErrDying (s <| x_log ::= app [EvErrDying (err_dying me s)] |>).

Lemma kill_kres me src e s : exists t p ev, kres me src e (x_tomb s) t p ev /\ fst (kill me src e s) = s <| x_tomb := t |> <| x_log ::= app [ev] |> /\
  (x_crash s = false -> kill_or_crash me src e s = s <| x_tomb := t |> <| x_crash := p |> <| x_log ::= app [ev] |>).
Proof.
  unfold kill_or_crash. destruct (kill_cases me src e s) as [[-> Hk]|[-> Hk]].
  - exists (x_tomb s), true, (EvKillPanic src e). split; [by constructor|]. split; [by destruct s|]. intros Hc. by destruct s.
  - eexists _, false, (EvKill src e). split; [by constructor|]. split; [by destruct s|]. intros Hc. destruct s. cbn in Hc. subst. done.
Qed.

Lemma wg_add_ok n s : cinv s -> x_work s = WkNone \/ x_wg s <> 0 -> wg_add n s = s <| x_wg ::= Nat.add n |>.
Proof.
  intros V Hw. pose proof (c_wgbad s V) as Hb. unfold wg_add.
  assert ((match x_work s with WkNone | WkRun | WkKill _ => false | _ => bool_decide (x_wg s = 0) end) = false) as ->.
  { destruct Hw as [->|Hw]; [done|]. destruct (x_work s); try done; by apply bool_decide_eq_false. }
  destruct s; cbn in *. subst. done.
Qed.

Lemma step_tr me s l s' : cinv s -> step me s l = Some s' -> x_crash s = false /\ tr me s l s'.
Proof.
  intros V Hs. unfold step in Hs. destruct (x_crash s) eqn:Hc; [done|]. split; [done|]. pose proof (c_panic s V) as Hp.
  destruct l; cbn -[kill worker_kill add wg_done wg_add gone kill_or_crash tomb_done] in Hs.
  - destruct (x_invs s !! i) eqn:Hi; [done|]. injection Hs as <-. by apply TInvoke.
  - destruct (x_invs s !! i) as [pc|] eqn:Hi; [|done]. destruct pc; cbn -[kill worker_kill add wg_done wg_add gone kill_or_crash tomb_go] in Hs.
    + destruct (validate p) eqn:Hv; injection Hs as <-; [by eapply TInvalid|by apply TValid].
    + destruct (x_dirty s) eqn:Hd; injection Hs as <-; [by eapply TReused|by apply TUsed].
    + destruct (c_act s V i _ Hi I) as (H1 & H2 & H3). destruct ws as [|[w|] ws]; injection Hs as <-; [by apply TInits| |by apply TInitNil].
      unfold add, wg_add. cbn. rewrite H2. cbn. refine (eq_rect _ (fun x => tr me s (LInv i) x) (TInit me s i w ws Hi) _ _). by destruct s.
    + destruct (c_act s V i _ Hi I) as (H1 & H2 & H3). injection Hs as <-. unfold wg_add. cbn. rewrite H2. refine (eq_rect _ (fun x => tr me s (LInv i) x) (TListen me s i Hi) _ _). by destruct s.
    + destruct (c_act s V i _ Hi I) as (H1 & H2 & H3). pose proof (c_dead s V) as Hdd. unfold tomb_go in Hs.
      assert (Hnd : t_dead (x_tomb s) = false). { destruct (t_dead (x_tomb s)); [|done]. rewrite H2 in Hdd. discriminate (proj1 Hdd eq_refl). }
      rewrite Hnd in Hs. cbn in Hs. rewrite Hp in Hs. injection Hs as <-. refine (eq_rect _ (fun x => tr me s (LInv i) x) (TGo me s i Hi) _ _). unfold tomb_go. rewrite Hnd. by destruct s.
    + destruct ws as [|[w|] ws]; injection Hs as <-; [by apply TStopped| |by apply TStopNil]. rewrite worker_kill_eq by done. exact (TStop me s i w ws r Hi).
    + destruct (worker_wait w s) eqn:Hw; [|done]. injection Hs as <-. by eapply TStopWaited.
    + done.
  - destruct (x_adds s !! i) eqn:Hi; [done|]. injection Hs as <-. by apply TAdd.
  - destruct (x_adds s !! i) as [[w []| | |]|] eqn:Hi; try done. destruct (x_lis s) eqn:Hl; try done. injection Hs as <-. by apply THand.
  - destruct (x_adds s !! i) as [[]|] eqn:Hi; try done. destruct (t_dying (x_tomb s)) eqn:Hd; [|done]. injection Hs as <-. by eapply TAddDying.
  - destruct (x_adds s !! i) as [[]|] eqn:Hi; try done. injection Hs as <-. rewrite worker_kill_eq by done. exact (TAddKill me s i w Hi).
  - destruct (x_adds s !! i) as [[]|] eqn:Hi; try done. destruct (worker_wait w s) eqn:Hw; [|done]. injection Hs as <-. by apply TAddWaited.
  - destruct (honest me e s) eqn:Hh; [|done]. injection Hs as <-. destruct (kill_kres me FromClient e s) as (t & p & ev & Hk & -> & _). by eapply TKill.
  - destruct (x_lis s) eqn:Hl; try done. injection Hs as <-. unfold add. pose proof (c_wg s V) as Hwg. rewrite Hl in Hwg. cbn in Hwg.
    assert (wg_add 2 (s <| x_lis := LiSelect |>) = s <| x_lis := LiSelect |> <| x_wg ::= Nat.add 2 |>) as ->.
    { unfold wg_add. cbn. assert (bool_decide (x_wg s = 0) = false) as -> by (apply bool_decide_eq_false; lia). pose proof (c_wgbad s V) as Hb. destruct s; cbn in *. subst. by destruct x_work. }
    exact (TAdded me s w Hl).
  - destruct (x_lis s) eqn:Hl; try done. destruct (t_dying (x_tomb s)) eqn:Hd; [|done]. injection Hs as <-. pose proof (c_wg s V) as Hwg. rewrite Hl in Hwg. cbn in Hwg.
    rewrite (wgd_frame _ (bsum (x_binds s))) by done. exact (TLisDying me s _ Hl Hd Hwg).
  - destruct (x_work s) eqn:Hw; try done. destruct r; [destruct (honest me e s) eqn:Hh; [|done]| |]; injection Hs as <-; [by apply TReturn|by apply TPanic|by apply TGoexit].
  - destruct (x_work s) eqn:Hw; try done. injection Hs as <-. destruct (kill_kres me FromWork e (s <| x_work := WkWg false |>)) as (t & p & ev & Hk & _ & Hkc). rewrite (Hkc Hc). exact (TWorkKill me s e t p ev Hw Hk).
  - destruct (x_work s) eqn:Hw; try done. case_bool_decide as Hz; [|done]. injection Hs as <-. by apply TWgWaited.
  - destruct (x_work s) eqn:Hw; try done. injection Hs as <-.
    assert (Hal : t_alive (x_tomb s) = 1) by (by rewrite (c_alive s V), Hw).
    assert (Ht : tomb_done (x_tomb s) None = (tomb_kill ((x_tomb s) <| t_alive := 0 |>) None) <| t_dead := true |>).
    { unfold tomb_done. cbn -[tomb_kill]. rewrite Hal. rewrite bool_decide_eq_true_2 by done. cbn -[tomb_kill]. unfold set at 1. cbn -[tomb_kill]. rewrite Hal.
      change (pred 1) with 0. destruct (x_tomb s) as [re al de pa]. cbn in *. subst. by destruct re as [|[]]. }
    rewrite Ht. refine (eq_rect _ (fun x => tr me s LTombDone x) (TDone me s Hw) _ _). by destruct s.
  - destruct (x_binds s !! b) as [[w [] p]|] eqn:Hb; try done. destruct (worker_wait w s) as [[e|]|] eqn:Hw; try done; injection Hs as <-; [by eapply TWaitErr|by apply TWaitNil].
  - destruct (x_binds s !! b) as [[w [] p]|] eqn:Hb; try done. injection Hs as <-.
    destruct (kill_kres me (FromWorker b) (Some e) (put b (mkBind w VClose p) s)) as (t & c & ev & Hk & _ & Hkc). rewrite (Hkc Hc). exact (TWaitKill me s b w p e t c ev Hb Hk).
  - destruct (x_binds s !! b) as [[w [] p]|] eqn:Hb; try done. injection Hs as <-. by apply TClose.
  - destruct (x_binds s !! b) as [[w [] p]|] eqn:Hb; try done. injection Hs as <-. pose proof (bound_wg s b _ V Hb) as Hle. unfold bc in Hle. cbn in Hle.
    destruct (x_wg s) as [|n] eqn:Hn; [lia|]. rewrite (wgd_frame _ n) by done.
    refine (eq_rect _ (fun x => tr me s (LWaitExit b) x) (TWaitExit me s b w p n Hb Hn) _ _). unfold gone, put. cbn. rewrite lookup_insert. destruct s, p; done.
  - destruct (x_binds s !! b) as [[w v []]|] eqn:Hb; try done. destruct (t_dying (x_tomb s)) eqn:Hd; [|done]. injection Hs as <-. by apply TStopDying.
  - destruct (x_binds s !! b) as [[w [] []]|] eqn:Hb; try done; injection Hs as <-; (apply TStopDone; auto).
  - destruct (x_binds s !! b) as [[w v []]|] eqn:Hb; try done. injection Hs as <-. rewrite worker_kill_eq by done. exact (TStopKill me s b w v Hb).
  - destruct (x_binds s !! b) as [[w v []]|] eqn:Hb; try done. destruct (worker_wait w s) eqn:Hw; [|done]. injection Hs as <-. by eapply TStopJoin.
  - destruct (x_binds s !! b) as [[w v []]|] eqn:Hb; try done. injection Hs as <-. pose proof (bound_wg s b _ V Hb) as Hle. unfold bc in Hle. cbn in Hle.
    destruct (x_wg s) as [|n] eqn:Hn; [lia|]. rewrite (wgd_frame _ n) by done.
    refine (eq_rect _ (fun x => tr me s (LStopExit b) x) (TStopExit me s b w v n Hb Hn) _ _). unfold gone, put. cbn. rewrite lookup_insert. destruct s, v; done.
  - destruct (x_ended s !! n) eqn:Hn; [done|]. destruct (honest me e s) eqn:Hh; [|done]. injection Hs as <-. by apply TEnd.
  - destruct (tomb_wait (x_tomb s)) eqn:Hw; [|done]. injection Hs as <-. by apply TWait.
  - injection Hs as <-. apply TErrDying.
Qed.

(** Induction over executions with explicit steps. *)
Lemma reach_tr me (P : state -> Prop) : P init -> (forall s l s', reachable me s -> cinv s -> x_crash s = false -> P s -> tr me s l s' -> P s') -> forall s, reachable me s -> P s.
Proof.
  intros H0 HS. apply reach_inv; [done|]. intros s l s' Hr HP Hs. pose proof (reach_cinv me s Hr) as V. destruct (step_tr me s l s' V Hs) as [Hc Ht]. eauto.
Qed.
