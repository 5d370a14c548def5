(** The steps of the full system with explicit states, and the circumstances of the callers' events. *)
From stdpp Require Import gmap strings list.
From Coq Require Import ZArith Lia.
From RecordUpdate Require Import RecordSet.
From Verif Require Import Err Tomb Runner RunnerSpec RunnerInv RunnerLog RunnerGor RunnerHist RunnerThms.
Import RecordSetNotations.

Definition first_pc (k : call) : cpc :=
  match k with KStart id f => CStart id f | KStop id => CStop id | KWorker id => CInfo IWorker id | KStopRm id => CInfo IStopRm id end.

Inductive strans (P : rcfg) (s : state) : state -> Prop :=
  | S_core l c' : own l = true -> cstep P (s_core s) l = Some c' ->
      (l = KAct -> forall i r, c_loop (s_core s) <> LDo (AReply i r)) -> (l = KAct -> c_loop (s_core s) <> LDo ABcast) ->
      (l = KAct -> forall a, c_loop (s_core s) = LDo a -> act_locks P (s_core s) a = true -> s_mu s = None) ->
      strans P s (s <| s_core := c' |>)
  | S_reply i id f r : c_loop (s_core s) = LDo (AReply i r) -> s_calls s !! i = Some (CReply id f) ->
      strans P s (return_ i (KStart id f) (RErr r) (s <| s_core := set_loop (LDo ABcast) (s_core s) |>))
  | S_bcast : c_loop (s_core s) = LDo ABcast -> strans P s (broadcast (s <| s_core := set_loop LTop (s_core s) |>))
  | S_call i k : s_calls s !! i = None -> strans P s (tell (CvCall i k) (set_call i (first_pc k) s))
  | S_recvstart i id f : s_calls s !! i = Some (CStart id f) -> c_loop (s_core s) = LTop -> finished (s_core s) = false ->
      strans P s (set_call i (CReply id f) (s <| s_core := set_loop (LDo (AStart i id f)) (s_core s) |>))
  | S_start_dead i id f : s_calls s !! i = Some (CStart id f) -> i ∈ c_ctx (s_core s) \/ t_dead (c_tomb (s_core s)) = true ->
      strans P s (return_ i (KStart id f) (RErr err_dead) s)
  | S_stop_dead i id : s_calls s !! i = Some (CStop id) -> t_dead (c_tomb (s_core s)) = true ->
      strans P s (return_ i (KStop id) (RErr err_dead) s)
  | S_recvstop i id : s_calls s !! i = Some (CStop id) -> c_loop (s_core s) = LTop -> finished (s_core s) = false ->
      strans P s (return_ i (KStop id) (RErr None) (s <| s_core := emit (EvStopReq i id) (set_loop (LDo (AKill id)) (s_core s)) |>))
  | S_look i k id r : s_calls s !! i = Some (CInfo k id) -> s_mu s = None -> get_worker (s_core s) id = Some r ->
      strans P s (set_call i (CCheck k id r) (tell (CvLookup i id r) s))
  | S_blocks i k id : s_calls s !! i = Some (CInfo k id) -> s_mu s = None -> get_worker (s_core s) id = None ->
      strans P s (set_call i (CSelect k id) (s <| s_waits ::= <[i := mkWaiter id TLocked false None]> |> <| s_mu := Some i |>))
  | S_info_dead i k id : ((exists r, s_calls s !! i = Some (CCheck k id r)) \/ s_calls s !! i = Some (CGotNF k id) \/ s_calls s !! i = Some (CSelect k id)) ->
      t_dying (c_tomb (s_core s)) = true -> strans P s (return_ i (icall k id) (RErr err_dead) s)
  | S_deliver i k id r : (s_calls s !! i = Some (CCheck k id r) /\ t_dying (c_tomb (s_core s)) = false) \/
      (s_calls s !! i = Some (CGotNF k id) /\ r = GNotFound /\ t_dying (c_tomb (s_core s)) = false) \/
      (s_calls s !! i = Some (CSelect k id) /\ r <> GNotFound /\ exists t, s_waits s !! i = Some t /\ t_chan t = Some r) ->
      strans P s (deliver i k id r s)
  | S_gotnf i k id t : s_calls s !! i = Some (CSelect k id) -> s_waits s !! i = Some t -> t_chan t = Some GNotFound ->
      strans P s (set_call i (CGotNF k id) s)
  | S_abort i k id : s_calls s !! i = Some (CSelect k id) -> i ∈ c_ctx (s_core s) ->
      strans P s (return_ i (icall k id) (RErr err_aborted) (broadcast (s <| s_waits ::= alter (fun t => t <| t_stopped := true |>) i |>)))
  | S_stopkill i id g w d : s_calls s !! i = Some (CKill id g w d) -> strans P s (tell (CvKill i g w) (set_call i (CWait id g d) s))
  | S_waited i id g d e : s_calls s !! i = Some (CWait id g d) -> c_ended (s_core s) !! g = Some e -> strans P s (set_call i (CDone id e d) s)
  | S_doneabort i id e d : s_calls s !! i = Some (CDone id e d) -> i ∈ c_ctx (s_core s) -> strans P s (return_ i (KStopRm id) (RErr err_aborted) s)
  | S_donerecv i id e d : s_calls s !! i = Some (CDone id e d) -> d ∈ c_signals (s_core s) ->
      strans P s (return_ i (KStopRm id) (RRemoved e) (s <| s_core := (s_core s) <| c_signals := c_signals (s_core s) ∖ {[d]} |> |>))
  | S_wtstop i id ch : s_waits s !! i = Some (mkWaiter id TLocked true ch) ->
      strans P s (s <| s_waits ::= <[i := mkWaiter id TExit true ch]> |> <| s_mu := None |>)
  | S_wtcheck i id ch : s_waits s !! i = Some (mkWaiter id TLocked false ch) ->
      strans P s (s <| s_waits ::= <[i := mkWaiter id TChecked false ch]> |>)
  | S_wtadd i id st ch : s_waits s !! i = Some (mkWaiter id TChecked st ch) ->
      strans P s (s <| s_waits ::= <[i := mkWaiter id TWaiting st ch]> |> <| s_mu := None |>)
  | S_wtfound i id st ch r : s_waits s !! i = Some (mkWaiter id TWoken st ch) -> s_mu s = None -> get_worker (s_core s) id = Some r ->
      strans P s (tell (CvLookup i id r) (s <| s_waits ::= <[i := mkWaiter id TExit st (Some r)]> |>))
  | S_wtagain i id st ch : s_waits s !! i = Some (mkWaiter id TWoken st ch) -> s_mu s = None -> get_worker (s_core s) id = None ->
      strans P s (s <| s_waits ::= <[i := mkWaiter id TLocked st ch]> |> <| s_mu := Some i |>)
  | S_names : s_mu s = None -> strans P s (tell (CvNames (dom (c_workers (s_core s)))) s)
  | S_report rep : s_mu s = None -> strans P s (tell (CvReport rep (report_of rep <$> c_workers (s_core s))) s)
  | S_wait e : tomb_wait (c_tomb (s_core s)) = Some e -> strans P s (tell (CvWait e) s).

Lemma step_strans P s l s' : step P s l = Some s' -> strans P s s'.
Proof.
  intros H. destruct l; cbn [step] in H.
  - destruct (own l) eqn:Ho; [|done]. cbn [negb] in H. destruct (cstep P (s_core s) l) as [c'|] eqn:Hc; [|done].
    assert (l = KAct \/ l <> KAct) as [->|Hne] by (destruct l; auto; by right).
    + destruct (c_loop (s_core s)) as [|a| |] eqn:Hl; try (cbn in Hc; by rewrite Hl in Hc).
      destruct (act_locks P (s_core s) a && bool_decide (s_mu s <> None)) eqn:Hlk; [done|].
      assert (forall a', LDo a = LDo a' -> act_locks P (s_core s) a' = true -> s_mu s = None) as Hmu.
      { intros a' [= <-] Ha. rewrite Ha in Hlk. cbn in Hlk. apply bool_decide_eq_false in Hlk. destruct (s_mu s); [|done]. by destruct Hlk. }
      destruct a; try (injection H as <-; eapply S_core; [done|exact Hc|rewrite Hl; done|rewrite Hl; done|by rewrite Hl]).
      * destruct (s_calls s !! c) as [[]|] eqn:Hcl; try done. injection H as <-. cbn in Hc. rewrite Hl in Hc. injection Hc as <-. by apply S_reply.
      * injection H as <-. cbn in Hc. rewrite Hl in Hc. injection Hc as <-. by apply S_bcast.
    + assert (s' = s <| s_core := c' |>) as ->. { destruct l; try done; by injection H as <-. }
      eapply S_core; [done|exact Hc|done..].
  - destruct (s_calls s !! c) eqn:Hc; [done|]. injection H as <-. by apply S_call.
  - destruct (s_calls s !! c) as [[]|] eqn:Hc; try done. cbn in H. destruct (at_select (s_core s)) eqn:Ha; [|done]. injection H as <-.
    apply select_inv in Ha as [? ?]. by apply S_recvstart.
  - destruct (s_calls s !! c) as [[]|] eqn:Hc; try done. case_bool_decide; [|done]. injection H as <-. apply S_start_dead; auto.
  - destruct (t_dead _) eqn:Hd; [|done]. destruct (s_calls s !! c) as [[]|] eqn:Hc; try done; injection H as <-; [by apply S_start_dead; auto|by apply S_stop_dead].
  - destruct (s_calls s !! c) as [[]|] eqn:Hc; try done. cbn in H. destruct (at_select (s_core s)) eqn:Ha; [|done]. injection H as <-.
    apply select_inv in Ha as [? ?]. by apply S_recvstop.
  - destruct (s_calls s !! c) as [[]|] eqn:Hc; try done. destruct (s_mu s) eqn:Hm; [done|]. destruct (get_worker _ _) eqn:Hg; injection H as <-; [by apply S_look|by apply S_blocks].
  - destruct (s_calls s !! c) as [[]|] eqn:Hc; try done. injection H as <-. destruct (t_dying _) eqn:Hd; [apply S_info_dead; eauto|apply S_deliver; auto].
  - destruct (s_calls s !! c) as [[]|] eqn:Hc; try done. destruct (s_waits s !! c) as [[? ? ? [r|]]|] eqn:Hw; try done. injection H as <-.
    destruct r; [by eapply S_gotnf|]. apply S_deliver. right. right. split; [done|]. split; [done|]. by eexists.
  - destruct (s_calls s !! c) as [[]|] eqn:Hc; try done. injection H as <-. destruct (t_dying _) eqn:Hd; [apply S_info_dead; eauto|apply (S_deliver P s c k id GNotFound); auto].
  - destruct (s_calls s !! c) as [[]|] eqn:Hc; try done. destruct (t_dying _) eqn:Hd; [|done]. injection H as <-. apply S_info_dead; eauto.
  - destruct (s_calls s !! c) as [[]|] eqn:Hc; try done. case_bool_decide; [|done]. injection H as <-. by apply S_abort.
  - destruct (s_calls s !! c) as [[]|] eqn:Hc; try done. injection H as <-. by eapply S_stopkill.
  - destruct (s_calls s !! c) as [[]|] eqn:Hc; try done. destruct (c_ended _ !! _) eqn:He; [|done]. injection H as <-. by eapply S_waited.
  - destruct (s_calls s !! c) as [[]|] eqn:Hc; try done. case_bool_decide; [|done]. injection H as <-. by eapply S_doneabort.
  - destruct (s_calls s !! c) as [[]|] eqn:Hc; try done. cbn in H. case_bool_decide; [|done]. injection H as <-. by eapply S_donerecv.
  - destruct (s_waits s !! c) as [[? [] [] ?]|] eqn:Hw; try done; injection H as <-; [by apply S_wtstop|by apply S_wtcheck].
  - destruct (s_waits s !! c) as [[? [] ? ?]|] eqn:Hw; try done; injection H as <-; by apply S_wtadd.
  - destruct (s_waits s !! c) as [[? [] ? ?]|] eqn:Hw; try done. destruct (s_mu s) eqn:Hm; [done|].
    destruct (get_worker _ _) eqn:Hg; injection H as <-; [by eapply S_wtfound|by apply S_wtagain].
  - destruct (s_mu s) eqn:Hm; [done|]. injection H as <-; by apply S_names.
  - destruct (s_mu s) eqn:Hm; [done|]. injection H as <-; by apply S_report.
  - destruct (tomb_wait _) eqn:Hw; [|done]. injection H as <-; by apply S_wait.
Qed.

(** Induction over reachable states. *)
Lemma run_snoc P s ls l : run P s (ls ++ [l]) = match run P s ls with Some s1 => step P s1 l | None => None end.
Proof.
  revert s. induction ls as [|l0 ls IH]; intros s; cbn.
  - by destruct (step P s l).
  - destruct (step P s l0); [apply IH|done].
Qed.
Lemma reach_ind P (I : state -> Prop) : I init -> (forall s s', reachable P s -> I s -> reachable P s' -> strans P s s' -> I s') -> forall s, reachable P s -> I s.
Proof.
  intros H0 HS s [ls Hls]. revert s Hls. induction ls as [|l ls IH] using rev_ind; intros s Hls.
  - cbn in Hls. by injection Hls as <-.
  - pose proof Hls as Hls'. rewrite run_snoc in Hls. destruct (run P init ls) as [s1|] eqn:E; [|done].
    apply (HS s1); [by exists ls|by apply IH|by exists (ls ++ [l])|by eapply step_strans].
Qed.

(** Steps of the core on their own emit no client events. *)
Definition quiet (evs : list event) : Prop := forall ce, EvClient ce ∉ evs.
Lemma quiet_nil : quiet [].
Proof. intros ce H. by apply elem_of_nil in H. Qed.
Lemma quiet_cons ev evs : (forall ce, ev <> EvClient ce) -> quiet evs -> quiet (ev :: evs).
Proof. intros H1 H2 ce [H|H]%elem_of_cons; [by apply (H1 ce)|by apply (H2 ce)]. Qed.
Definition adds (l l' : list event) : Prop := exists evs, l' = evs ++ l /\ quiet evs.
Lemma adds_refl l : adds l l.
Proof. exists []. split; [done|apply quiet_nil]. Qed.
Lemma adds_cons l l' ev : (forall ce, ev <> EvClient ce) -> adds l l' -> adds l (ev :: l').
Proof. intros H (evs & -> & Hq). exists (ev :: evs). split; [done|by apply quiet_cons]. Qed.
Lemma adds_kill id c l : adds l (c_log c) -> adds l (c_log (kill_worker id c)).
Proof. intros H. unfold kill_worker. destruct (c_workers c !! id) as [n|]; [|done]. destruct (i_worker n) as [[g w]|]; cbn; [by apply adds_cons|done]. Qed.
Lemma adds_kill_all c l : adds l (c_log c) -> adds l (c_log (kill_all c)).
Proof. unfold kill_all. generalize (elements (dom (c_workers c))). intros ids. induction ids as [|id ids IH]; cbn; [done|]. intros H. by apply adds_kill, IH. Qed.
Lemma adds_remove id d a c l : adds l (c_log c) -> adds l (c_log (remove_worker id d a c)).
Proof. intros H. unfold remove_worker. case_bool_decide; cbn; by apply adds_cons. Qed.
Lemma own_quiet P c l c' : own l = true -> cstep P c l = Some c' -> adds (c_log c) (c_log c').
Proof.
  assert (adds (c_log c) (c_log c)) as A0 by apply adds_refl.
  intros Ho Hs. destruct l; try done; cbn in Hs.
  - injection Hs as <-. unfold kill_tomb. destruct (t_dying _); cbn; [done|by apply adds_cons].
  - destruct (0 <=? d)%Z; [|done]. by injection Hs as <-.
  - injection Hs as <-. by apply adds_cons.
  - destruct (_ && _); [|done]. injection Hs as <-. by apply adds_cons.
  - destruct (c_gors c !! g) as [[? ? ? []]|]; try done. destruct (at_select c); [|done]. by injection Hs as <-.
  - destruct (c_gors c !! g) as [[? ? ? []]|]; try done. destruct (at_select c); [|done]. by injection Hs as <-.
  - destruct (c_loop c) as [|a| |]; try done. destruct a.
    + injection Hs as <-. by apply adds_kill_all.
    + injection Hs as <-. unfold start_worker. destruct (c_dying c); [by apply adds_cons|]. destruct (c_workers c !! id); cbn; repeat apply adds_cons; done.
    + by injection Hs as <-.
    + injection Hs as <-. by apply adds_kill.
    + destruct (c_gors c !! g) as [r|]; [|done]. injection Hs as <-. unfold set_worker. destruct (c_workers c !! w_id r) as [n|]; [|done].
      destruct (_ || _); [|by apply adds_cons]. apply (adds_kill (w_id r)). by apply adds_cons.
    + destruct (c_gors c !! g) as [[id ? ? []]|]; try done. injection Hs as <-. unfold worker_done. cbn. destruct (c_workers c !! id) as [n|]; [|by apply adds_cons].
      assert (forall ac, adds (c_log c) (c_log (remove_worker id (i_done n) ac (emit (EvDone g id e (c_now c)) (set_pc g WGone c))))) as R.
      { intros ac. apply adds_remove. by apply adds_cons. }
      destruct e as [y|]; cbn.
      * destruct (r_isFatal P y).
        { destruct (c_dying c); cbn; [|apply adds_cons; [done|]]; apply adds_remove; by apply adds_cons. }
        destruct (r_shouldRestart P y); cbn; [|apply R]. destruct (i_start n); [cbn; repeat apply adds_cons; done|apply R].
      * destruct (i_stopping n); cbn; [|apply R]. destruct (i_start n); [cbn; repeat apply adds_cons; done|apply R].
    + by injection Hs as <-.
  - destruct (c_loop c); try done. destruct (finished c); [|done]. injection Hs as <-. cbn. destruct (t_dead _); [by apply adds_cons|done].
  - destruct (c_gors c !! g) as [[? ? ? []]|]; try done. destruct (0 <? d)%Z; injection Hs as <-; [done|by apply adds_cons].
  - destruct (c_gors c !! g) as [[? ? ? []]|]; try done. destruct (_ <=? _)%Z; [|done]. injection Hs as <-. by apply adds_cons.
  - destruct (c_gors c !! g) as [[? ? ? []]|]; try done. destruct (t_dying _); [|done]. by injection Hs as <-.
  - destruct (c_gors c !! g) as [[? ? ? []]|]; try done. injection Hs as <-. by apply adds_cons.
  - destruct (c_gors c !! g) as [[? ? ? []]|]; try done. injection Hs as <-. by apply adds_cons.
  - destruct (c_gors c !! g) as [[? ? ? []]|]; try done; destruct (c_ended c !! g); try done; injection Hs as <-; by apply adds_cons.
  - destruct (c_gors c !! g) as [[? ? ? []]|]; try done; destruct (c_ended c !! g); try done; by injection Hs as <-.
  - destruct (c_gors c !! g) as [[? ? ? []]|]; try done; by injection Hs as <-.
Qed.

(** The circumstances of the callers' events: [ce] was emitted by a step from [s], with [post] the log before it. *)
Definition cem (s : state) (ce : cevent) (post : list event) : Prop :=
  match ce with
  | CvCall i k => post = rlog s /\ s_calls s !! i = None
  | CvLookup i id r => post = rlog s /\ get_worker (s_core s) id = Some r /\
      ((exists k, s_calls s !! i = Some (CInfo k id)) \/ (exists st ch, s_waits s !! i = Some (mkWaiter id TWoken st ch)))
  | CvKill i g w => post = rlog s /\ exists id d, s_calls s !! i = Some (CKill id g w d)
  | CvRet i k r =>
      match k with
      | KStart id f => post = rlog s /\
          ((exists e, r = RErr e /\ c_loop (s_core s) = LDo (AReply i e) /\ s_calls s !! i = Some (CReply id f)) \/
           (r = RErr err_dead /\ s_calls s !! i = Some (CStart id f) /\ (i ∈ c_ctx (s_core s) \/ t_dead (c_tomb (s_core s)) = true)))
      | KStop id => s_calls s !! i = Some (CStop id) /\
          ((r = RErr None /\ post = EvStopReq i id :: rlog s) \/ (r = RErr err_dead /\ post = rlog s /\ t_dead (c_tomb (s_core s)) = true))
      | KWorker id => post = rlog s /\
          ((r = RErr err_dead /\ t_dying (c_tomb (s_core s)) = true /\ ((exists q, s_calls s !! i = Some (CCheck IWorker id q)) \/ s_calls s !! i = Some (CGotNF IWorker id) \/ s_calls s !! i = Some (CSelect IWorker id))) \/
           (r = RErr err_aborted /\ s_calls s !! i = Some (CSelect IWorker id) /\ i ∈ c_ctx (s_core s)) \/
           (exists q, ((s_calls s !! i = Some (CCheck IWorker id q) /\ t_dying (c_tomb (s_core s)) = false) \/
               (s_calls s !! i = Some (CGotNF IWorker id) /\ q = GNotFound /\ t_dying (c_tomb (s_core s)) = false) \/
               (s_calls s !! i = Some (CSelect IWorker id) /\ q <> GNotFound /\ exists t, s_waits s !! i = Some t /\ t_chan t = Some q)) /\
             r = match q with GNotFound => RErr (not_found id) | GWorker g w _ => RWorker g w end))
      | KStopRm id => post = rlog s /\
          ((r = RErr err_dead /\ t_dying (c_tomb (s_core s)) = true /\ ((exists q, s_calls s !! i = Some (CCheck IStopRm id q)) \/ s_calls s !! i = Some (CGotNF IStopRm id) \/ s_calls s !! i = Some (CSelect IStopRm id))) \/
           (r = RErr err_aborted /\ (s_calls s !! i = Some (CSelect IStopRm id) \/ exists e d, s_calls s !! i = Some (CDone id e d)) /\ i ∈ c_ctx (s_core s)) \/
           (r = RErr (not_found id) /\ (s_calls s !! i = Some (CCheck IStopRm id GNotFound) \/ s_calls s !! i = Some (CGotNF IStopRm id)) /\ t_dying (c_tomb (s_core s)) = false) \/
           (exists e d, r = RRemoved e /\ s_calls s !! i = Some (CDone id e d) /\ d ∈ c_signals (s_core s)))
      end
  | CvNames ns => post = rlog s /\ s_mu s = None /\ ns = dom (c_workers (s_core s))
  | CvReport rep m => post = rlog s /\ s_mu s = None /\ m = report_of rep <$> c_workers (s_core s)
  | CvWait e => post = rlog s /\ tomb_wait (c_tomb (s_core s)) = Some e
  end.

Lemma strans_emits P s s' : strans P s s' ->
  adds (rlog s) (rlog s') \/ exists ce post, rlog s' = EvClient ce :: post /\ adds (rlog s) post /\ cem s ce post.
Proof.
  assert (adds (rlog s) (rlog s)) as A0 by apply adds_refl. unfold rlog in *.
  intros HT. destruct HT; try (by left);
    try (right; unfold return_, tell; cbn; eexists _, _; split; [reflexivity|]; split; [done|]; cbn; by eauto 10).
  - left. by eapply own_quiet.
  - right. unfold return_, tell; cbn; eexists _, _; split; [reflexivity|]; split; [by apply adds_cons|]. cbn. by eauto 10.
  - right. unfold return_, tell; cbn; eexists _, _; split; [reflexivity|]; split; [done|]. destruct k; cbn; (split; [done|]); left; by eauto.
  - destruct r; cbn; [destruct k; cbn|destruct k; cbn; [|by left]]; right; eexists _, _; (split; [reflexivity|]); (split; [done|]); cbn; (split; [done|]).
    + right. right. exists GNotFound. split; [|done]. naive_solver.
    + right. right. left. split; [done|]. naive_solver.
    + right. right. exists (GWorker g w d). split; [|done]. naive_solver.
  - right. unfold return_, tell; cbn; eexists _, _; split; [reflexivity|]; split; [done|]. destruct k; cbn; by eauto 10.
Qed.

Lemma client_read P s : reachable P s -> forall pre ce post, rlog s = pre ++ EvClient ce :: post ->
  exists s0, reachable P s0 /\ adds (rlog s0) post /\ cem s0 ce post.
Proof.
  revert s. apply (reach_ind P (fun s => forall pre ce post, rlog s = pre ++ EvClient ce :: post ->
    exists s0, reachable P s0 /\ adds (rlog s0) post /\ cem s0 ce post)); [by intros []|].
  intros s s' Hr IH _ HT pre ce post Hl. apply strans_emits in HT.
  assert (forall evs pre, quiet evs -> evs ++ rlog s = pre ++ EvClient ce :: post -> exists s0, reachable P s0 /\ adds (rlog s0) post /\ cem s0 ce post) as Hold.
  { intros evs. induction evs as [|ev evs IHe]; intros pre' Hq He; cbn in He.
    - by apply (IH pre' ce post).
    - destruct pre' as [|x pre']; cbn in He; injection He as -> He.
      + exfalso. apply (Hq ce). by left.
      + apply (IHe pre'); [|done]. intros ce' H. apply (Hq ce'). by right. }
  destruct HT as [(evs & He & Hq)|(ce' & post' & He & (evs & -> & Hq) & Hc)].
  - apply (Hold evs pre Hq). by rewrite <- He.
  - rewrite He in Hl. destruct pre as [|x pre]; cbn in Hl; simplify_eq.
    + exists s. split; [done|]. split; [by exists evs|done].
    + by apply (Hold evs pre Hq).
Qed.

(** ** What is known about a call in progress *)
Notation EvC ce := (EvClient ce).
Definition pc_ok (log : list event) (i : nat) (p : cpc) : Prop :=
  match p with
  | CStart id f | CReply id f => EvC (CvCall i (KStart id f)) ∈ log
  | CStop id => EvC (CvCall i (KStop id)) ∈ log
  | CInfo k id | CSelect k id => EvC (CvCall i (icall k id)) ∈ log
  | CCheck k id r => EvC (CvCall i (icall k id)) ∈ log /\ EvC (CvLookup i id r) ∈ log
  | CGotNF k id => EvC (CvCall i (icall k id)) ∈ log /\ EvC (CvLookup i id GNotFound) ∈ log
  | CKill id g w d => EvC (CvCall i (KStopRm id)) ∈ log /\ EvC (CvLookup i id (GWorker g w d)) ∈ log
  | CWait id g d => EvC (CvCall i (KStopRm id)) ∈ log /\ exists w, EvC (CvLookup i id (GWorker g w d)) ∈ log /\ EvC (CvKill i g w) ∈ log
  | CDone id e d => EvC (CvCall i (KStopRm id)) ∈ log /\ exists g w, EvC (CvLookup i id (GWorker g w d)) ∈ log /\ EvC (CvKill i g w) ∈ log /\ EvEnd g id e ∈ log
  | CRet => exists k r, EvC (CvCall i k) ∈ log /\ EvC (CvRet i k r) ∈ log
  end.
Lemma pc_ok_mono log log' i p : log ⊆ log' -> pc_ok log i p -> pc_ok log' i p.
Proof. intros H. destruct p; cbn; naive_solver. Qed.

Record linv (s : state) : Prop := {
  li_pc : forall i p, s_calls s !! i = Some p -> pc_ok (rlog s) i p;
  li_returned : forall i k r, EvC (CvRet i k r) ∈ rlog s -> s_calls s !! i = Some CRet;
  li_wait : forall i t, s_waits s !! i = Some t -> (exists k, EvC (CvCall i (icall k (t_id t))) ∈ rlog s) /\ forall r, t_chan t = Some r -> EvC (CvLookup i (t_id t) r) ∈ rlog s;
  li_select : forall i k id, s_calls s !! i = Some (CSelect k id) -> exists t, s_waits s !! i = Some t /\ t_id t = id
}.
Record loopinv (s : state) : Prop := {
  li_reply : forall i id f, s_calls s !! i = Some (CReply id f) -> c_loop (s_core s) = LDo (AStart i id f) \/ exists r, c_loop (s_core s) = LDo (AReply i r);
  li_start : forall i id f, c_loop (s_core s) = LDo (AStart i id f) -> s_calls s !! i = Some (CReply id f);
  li_areply : forall i r, c_loop (s_core s) = LDo (AReply i r) -> exists id f, s_calls s !! i = Some (CReply id f) /\ EvAnswer i id f r ∈ rlog s
}.
Lemma adds_sub l l' : adds l l' -> l ⊆ l'.
Proof. intros (evs & -> & _) x Hx. apply elem_of_app. by right. Qed.
Lemma adds_client l l' ce : adds l l' -> EvC ce ∈ l' -> EvC ce ∈ l.
Proof. intros (evs & -> & Hq) H. apply elem_of_app in H as [H|H]; [by destruct (Hq ce)|done]. Qed.

Lemma lookup_set P s i id g w d : reachable P s -> EvC (CvLookup i id (GWorker g w d)) ∈ rlog s -> EvSet g id w ∈ rlog s.
Proof.
  intros Hr H. destruct (elem_split _ _ H) as (pre & post & He). destruct (client_read P s Hr _ _ _ He) as (s0 & Hr0 & Ha & Hc).
  destruct Hc as (-> & Hg & _). pose proof (reach_all P s0 Hr0) as A. unfold get_worker in Hg. destruct (c_workers (s_core s0) !! id) as [n|] eqn:Hn; [|done].
  destruct (i_worker n) as [[g' w']|] eqn:Hw; [|done]. injection Hg as -> -> <-. rewrite He. apply elem_of_app. right. right. by apply (gl_reg _ (a_gor P _ A) id n).
Qed.

(** A call is made once. *)
Lemma calls_grow P s s' i : strans P s s' -> is_Some (s_calls s !! i) -> is_Some (s_calls s' !! i).
Proof.
  assert (forall j p (m : gmap nat cpc), is_Some (m !! i) -> is_Some (<[j := p]> m !! i)) as Hi.
  { intros j p m H. destruct (decide (i = j)) as [->|Hne]; [rewrite lookup_insert; eauto|by rewrite lookup_insert_ne]. }
  intros HT. destruct HT; cbn; auto. destruct r; cbn; [auto|]. destruct k; cbn; auto.
Qed.
Lemma call_registers P s s' i k : strans P s s' -> rlog s' = EvC (CvCall i k) :: rlog s -> s_calls s' !! i = Some (first_pc k) /\ s_calls s !! i = None.
Proof.
  unfold rlog. intros HT He. destruct HT; unfold return_, tell in He; cbn in He; try discriminate He;
    try (exfalso; apply (f_equal length) in He; cbn in He; lia).
  - exfalso. destruct (own_quiet P _ _ _ H H0) as (evs & E1 & E2). rewrite E1 in He. destruct evs as [|ev evs]; cbn in He.
    + apply (f_equal length) in He; cbn in He; lia.
    + injection He as -> _. apply (E2 (CvCall i k)). by left.
  - injection He as -> ->. cbn. by rewrite lookup_insert.
  - exfalso. destruct r, k0; cbn in He; try discriminate. apply (f_equal length) in He; cbn in He; lia.
Qed.
Lemma called_some P s : reachable P s -> forall i k, EvC (CvCall i k) ∈ rlog s -> is_Some (s_calls s !! i).
Proof.
  revert s. apply (reach_ind P (fun s => forall i k, EvC (CvCall i k) ∈ rlog s -> is_Some (s_calls s !! i))).
  - cbn. intros i k H. by apply elem_of_nil in H.
  - intros s s' Hr IH Hr' HT i k H. destruct (strans_emits P s s' HT) as [Ha|(ce & post & He & Ha & Hc)].
    + eapply calls_grow; [done|]. eapply IH, adds_client; done.
    + rewrite He in H. apply elem_of_cons in H as [[= <-]|H]; [|eapply calls_grow; [done|]; eapply IH, adds_client; done].
      destruct Hc as [-> _]. eexists; by eapply call_registers.
Qed.
Lemma call_once P s pre i k post : reachable P s -> rlog s = pre ++ EvC (CvCall i k) :: post -> forall k', EvC (CvCall i k') ∉ post.
Proof.
  intros Hr Hl k' H. destruct (client_read P s Hr _ _ _ Hl) as (s0 & Hr0 & _ & (-> & Hn)). apply (called_some P s0 Hr0) in H. rewrite Hn in H. by destruct H.
Qed.
Lemma call_unique P s i k k' : reachable P s -> EvC (CvCall i k) ∈ rlog s -> EvC (CvCall i k') ∈ rlog s -> k = k'.
Proof.
  intros Hr H1 H2. destruct (elem_split _ _ H1) as (p1 & q1 & E1). rewrite E1 in H2. apply elem_of_app in H2 as [H2|[[= ->]|H2]%elem_of_cons]; [|done|].
  - destruct (elem_split _ _ H2) as (p2 & q2 & ->). rewrite <- app_assoc in E1. cbn in E1. destruct (call_once P s _ _ _ _ Hr E1 k).
    apply elem_of_app. right. by left.
  - by destruct (call_once P s _ _ _ _ Hr E1 k').
Qed.
Lemma linv_init : linv init.
Proof. split; cbn; try done; intros; match goal with H : _ ∈ [] |- _ => by apply elem_of_nil in H end. Qed.
Lemma linv_upd s s' i p : linv s -> s_calls s' = <[i := p]> (s_calls s) -> rlog s ⊆ rlog s' ->
  (forall ce, EvC ce ∈ rlog s' -> EvC ce ∈ rlog s \/ match ce with CvRet j _ _ => j = i /\ p = CRet | _ => True end) ->
  (s_calls s !! i <> Some CRet) -> pc_ok (rlog s') i p ->
  (forall j t, s_waits s !! j = Some t -> exists t', s_waits s' !! j = Some t' /\ t_id t' = t_id t) ->
  (forall j t', s_waits s' !! j = Some t' -> (exists t, s_waits s !! j = Some t /\ t_id t' = t_id t /\ (t_chan t' = t_chan t \/ exists r, t_chan t' = Some r /\ EvC (CvLookup j (t_id t') r) ∈ rlog s')) \/ (exists k, j = i /\ p = CSelect k (t_id t') /\ t_chan t' = None)) ->
  (forall k id, p = CSelect k id -> exists t, s_waits s' !! i = Some t /\ t_id t = id) ->
  linv s'.
Proof.
  intros [V1 V4 V8 V9] Hc Hsub Hev Hold Hp Hw1 Hw2 Hsel. split.
  - intros j q Hq. rewrite Hc in Hq. apply lookup_insert_Some in Hq as [[<- <-]|[Hne Hq]]; [done|]. eapply pc_ok_mono; [done|]. by apply V1.
  - intros j k r Hj. rewrite Hc. destruct (Hev _ Hj) as [H|[-> ->]]; [|by rewrite lookup_insert]. apply V4 in H. rewrite lookup_insert_ne; congruence.
  - intros j t' Ht'. destruct (Hw2 _ _ Ht') as [(t & Ht & E1 & E2)|(k & -> & -> & E2)].
    + destruct (V8 _ _ Ht) as [(k & H1) H2]. rewrite E1. split; [exists k; by apply Hsub|]. intros r Hr. destruct E2 as [E2|(r' & E2 & E3)].
      * apply Hsub, H2. congruence.
      * assert (r' = r) as -> by congruence. by rewrite <- E1.
    + split; [|rewrite E2; done]. exists k. exact Hp.
  - intros j k id Hj. rewrite Hc in Hj. apply lookup_insert_Some in Hj as [[<- ->]|[Hne Hj]]; [by apply (Hsel k)|].
    destruct (V9 _ _ _ Hj) as (t & Ht & <-). by apply Hw1.
Qed.
Lemma linv_upd' s s' i p : linv s -> s_calls s' = <[i := p]> (s_calls s) -> rlog s ⊆ rlog s' ->
  (forall ce, EvC ce ∈ rlog s' -> EvC ce ∈ rlog s \/ match ce with CvRet j _ _ => j = i /\ p = CRet | _ => True end) ->
  (s_calls s !! i <> Some CRet) -> pc_ok (rlog s') i p -> s_waits s' = s_waits s -> (forall k id, p <> CSelect k id) -> linv s'.
Proof.
  intros V Hc Hs He Ho Hp Hw Hsel. eapply (linv_upd s s' i p); [done..| | |].
  - intros j t Ht. rewrite Hw. eauto.
  - intros j t Ht. left. rewrite Hw in Ht. eauto.
  - intros k id ->. by destruct (Hsel k id).
Qed.
(** only waiters (and the log) change *)
Lemma linv_wait s s' : linv s -> s_calls s' = s_calls s -> rlog s ⊆ rlog s' ->
  (forall ce, EvC ce ∈ rlog s' -> EvC ce ∈ rlog s \/ match ce with CvRet j _ _ => False | _ => True end) ->
  (forall j t, s_waits s !! j = Some t -> exists t', s_waits s' !! j = Some t' /\ t_id t' = t_id t) ->
  (forall j t', s_waits s' !! j = Some t' -> exists t, s_waits s !! j = Some t /\ t_id t' = t_id t /\ (t_chan t' = t_chan t \/ exists r, t_chan t' = Some r /\ EvC (CvLookup j (t_id t') r) ∈ rlog s')) ->
  linv s'.
Proof.
  intros [V1 V4 V8 V9] Hc Hsub Hev Hw1 Hw2. split; rewrite ?Hc.
  - intros j q Hq. eapply pc_ok_mono; [done|]. by apply V1.
  - intros j k r Hj. destruct (Hev _ Hj) as [H|H]; [by eapply V4|done].
  - intros j t' Ht'. destruct (Hw2 _ _ Ht') as (t & Ht & E1 & E2). destruct (V8 _ _ Ht) as [(k & H1) H2]. rewrite E1. split; [exists k; by apply Hsub|]. intros r Hr. destruct E2 as [E2|(r' & E2 & E3)].
    + apply Hsub, H2. congruence.
    + assert (r' = r) as -> by congruence. by rewrite <- E1.
  - intros j k id Hj. destruct (V9 _ _ _ Hj) as (t & Ht & <-). by apply Hw1.
Qed.
Lemma wake_id t : t_id (wake t) = t_id t.
Proof. by destruct t as [? [] ? ?]. Qed.
Lemma wake_chan t : t_chan (wake t) = t_chan t.
Proof. by destruct t as [? [] ? ?]. Qed.

Lemma sub_cons (l : list event) ev : l ⊆ ev :: l.
Proof. intros x Hx. by right. Qed.
Lemma linv_trans P s s' : reachable P s -> linv s -> strans P s s' -> linv s'.
Proof.
  intros Hr V HT.
  assert (forall (l : list event) ce ce', EvC ce ∈ EvC ce' :: l -> EvC ce ∈ l \/ ce = ce') as Hin.
  { intros l ce ce' H. apply elem_of_cons in H as [[= ->]|H]; auto. }
  destruct HT; unfold return_, tell; cbn.
  - pose proof (own_quiet P _ _ _ H H0) as Hadd. apply (linv_wait s); [done|done|by apply adds_sub| |eauto|eauto].
    intros ce Hce. left. by eapply adds_client.
  - apply (linv_upd' s _ i CRet); [done|done|apply sub_cons| |by rewrite H0| |done|done].
    + intros ce Hce. apply Hin in Hce as [?| ->]; auto.
    + exists (KStart id f), (RErr r). split; [|by left]. right. exact (li_pc s V _ _ H0).
  - apply (linv_wait s); [done|done|done|auto| |]; cbn; intros j t Ht.
    + rewrite lookup_fmap, Ht. cbn. eexists. split; [done|]. apply wake_id.
    + rewrite lookup_fmap in Ht. destruct (s_waits s !! j) as [t0|]; [|done]. injection Ht as <-. exists t0. rewrite wake_id, wake_chan. auto.
  - apply (linv_upd' s _ i (first_pc k)); [done|done|apply sub_cons| |by rewrite H| |done|by destruct k].
    + intros ce Hce. apply Hin in Hce as [?| ->]; auto.
    + destruct k; cbn; by left.
  - apply (linv_upd' s _ i (CReply id f)); [done|done|done|auto|by rewrite H| |done|done]. exact (li_pc s V _ _ H).
  - apply (linv_upd' s _ i CRet); [done|done|apply sub_cons| |by rewrite H| |done|done].
    + intros ce Hce. apply Hin in Hce as [?| ->]; auto.
    + exists (KStart id f), (RErr err_dead). split; [|by left]. right. exact (li_pc s V _ _ H).
  - apply (linv_upd' s _ i CRet); [done|done|apply sub_cons| |by rewrite H| |done|done].
    + intros ce Hce. apply Hin in Hce as [?| ->]; auto.
    + exists (KStop id), (RErr err_dead). split; [|by left]. right. exact (li_pc s V _ _ H).
  - apply (linv_upd' s _ i CRet); [done|done| | |by rewrite H| |done|done].
    + cbn. intros x Hx. right. by right.
    + intros ce Hce. apply Hin in Hce as [Hce| ->]; auto. cbn in Hce. apply elem_of_cons in Hce as [[=]|Hce]. auto.
    + exists (KStop id), (RErr None). split; [|by left]. right. right. exact (li_pc s V _ _ H).
  - apply (linv_upd' s _ i (CCheck k id r)); [done|done|apply sub_cons| |by rewrite H| |done|done].
    + intros ce Hce. apply Hin in Hce as [?| ->]; auto.
    + split; [|by left]. right. exact (li_pc s V _ _ H).
  - apply (linv_upd s _ i (CSelect k id)); [done|done|done|auto|by rewrite H| | | |]; cbn.
    + exact (li_pc s V _ _ H).
    + intros j t Ht. destruct (decide (i = j)) as [<-|Hne]; [|rewrite lookup_insert_ne by done; eauto].
      rewrite lookup_insert. eexists. split; [done|]. cbn. destruct (li_wait s V _ _ Ht) as [(k' & H2) _].
      pose proof (call_unique P s _ _ _ Hr H2 (li_pc s V _ _ H)) as E. destruct k, k'; cbn in E; congruence.
    + intros j t Ht. apply lookup_insert_Some in Ht as [[<- <-]|[Hne Ht]]; [right; by exists k|left; eauto].
    + intros k' id' [= <- <-]. rewrite lookup_insert. by eexists.
  - assert (exists p, s_calls s !! i = Some p /\ p <> CRet /\ EvC (CvCall i (icall k id)) ∈ rlog s) as (p & Hp & Hp1 & Hp2).
    { destruct H as [[r H]|[H|H]]; eexists; (split; [exact H|]); (split; [done|]); pose proof (li_pc s V _ _ H) as Hc; cbn in Hc; destruct_and?; done. }
    apply (linv_upd' s _ i CRet); [done|done|apply sub_cons| |congruence| |done|done].
    + intros ce Hce. apply Hin in Hce as [?| ->]; auto.
    + exists (icall k id), (RErr err_dead). split; [|by left]. by right.
  - assert (exists p, s_calls s !! i = Some p /\ p <> CRet /\ EvC (CvCall i (icall k id)) ∈ rlog s /\ EvC (CvLookup i id r) ∈ rlog s) as (p & Hp & Hp1 & Hp2 & Hp3).
    { destruct H as [[H _]|[(H & -> & _)|(H & _ & t & Ht & Hch)]]; eexists; (split; [exact H|]); (split; [done|]); pose proof (li_pc s V _ _ H) as Hc; cbn in Hc; try done.
      split; [done|]. destruct (li_select s V _ _ _ H) as (t' & Ht' & <-). assert (t' = t) as -> by congruence. by apply (li_wait s V _ _ Ht). }
    assert (forall r0, linv (return_ i (icall k id) r0 s)) as Hret.
    { intros r0. apply (linv_upd' s _ i CRet); [done|done|apply sub_cons| |congruence| |done|done].
      + intros ce Hce. apply Hin in Hce as [?| ->]; auto.
      + exists (icall k id), r0. split; [|by left]. by right. }
    destruct r; cbn; [apply Hret|]. destruct k; [apply (Hret (RWorker g w))|].
    apply (linv_upd' s _ i (CKill id g w d)); [done|done|done|auto|congruence|done|done|done].
  - apply (linv_upd' s _ i (CGotNF k id)); [done|done|done|auto|congruence| |done|done]. split; [exact (li_pc s V _ _ H)|].
    destruct (li_select s V _ _ _ H) as (t' & Ht' & <-). assert (t' = t) as -> by congruence. by apply (li_wait s V _ _ H0).
  - apply (linv_upd s _ i CRet); [done|done|apply sub_cons| |congruence| | | |done]; cbn.
    + intros ce Hce. apply Hin in Hce as [?| ->]; auto.
    + exists (icall k id), (RErr err_aborted). split; [|by left]. right. exact (li_pc s V _ _ H).
    + intros j t Ht. rewrite lookup_fmap. destruct (decide (i = j)) as [<-|Hne].
      * rewrite lookup_alter, Ht. cbn. eexists. split; [done|]. by rewrite wake_id.
      * rewrite lookup_alter_ne, Ht by done. cbn. eexists. split; [done|]. by rewrite wake_id.
    + intros j t Ht. rewrite lookup_fmap in Ht. left. destruct (decide (i = j)) as [<-|Hne].
      * rewrite lookup_alter in Ht. destruct (s_waits s !! i) as [t0|]; [|done]. injection Ht as <-. exists t0. rewrite wake_id, wake_chan. auto.
      * rewrite lookup_alter_ne in Ht by done. destruct (s_waits s !! j) as [t0|]; [|done]. injection Ht as <-. exists t0. rewrite wake_id, wake_chan. auto.
  - apply (linv_upd' s _ i (CWait id g d)); [done|done|apply sub_cons| |congruence| |done|done].
    + intros ce Hce. apply Hin in Hce as [?| ->]; auto.
    + destruct (li_pc s V _ _ H) as [H1 H2]. split; [by right|]. exists w. split; [by right|by left].
  - apply (linv_upd' s _ i (CDone id e d)); [done|done|done|auto|congruence| |done|done].
    destruct (li_pc s V _ _ H) as [H1 (w & H2 & H3)]. split; [done|]. exists g, w. split_and!; [done|done|].
    pose proof (lookup_set P s _ _ _ _ _ Hr H2) as Hset. pose proof (a_gor P _ (reach_all P s Hr)) as G.
    destruct (gl_ended _ G _ _ H0) as (id' & He). destruct (gl_about _ G _ _ _ Hset eq_refl) as (r1 & E1 & <-).
    destruct (gl_about _ G _ _ _ He eq_refl) as (r2 & E2 & <-). assert (r2 = r1) as -> by congruence. done.
  - apply (linv_upd' s _ i CRet); [done|done|apply sub_cons| |congruence| |done|done].
    + intros ce Hce. apply Hin in Hce as [?| ->]; auto.
    + exists (KStopRm id), (RErr err_aborted). split; [|by left]. right. apply (li_pc s V _ _ H).
  - apply (linv_upd' s _ i CRet); [done|done|apply sub_cons| |congruence| |done|done].
    + intros ce Hce. apply Hin in Hce as [?| ->]; auto.
    + exists (KStopRm id), (RRemoved e). split; [|by left]. right. apply (li_pc s V _ _ H).
  - apply (linv_wait s); [done|done|done|auto| |]; cbn; intros j t Ht.
    + destruct (decide (i = j)) as [<-|Hne]; [rewrite lookup_insert|rewrite lookup_insert_ne by done; eauto]. eexists. split; [done|]. rewrite H in Ht. by injection Ht as <-.
    + apply lookup_insert_Some in Ht as [[<- <-]|[Hne Ht]]; eauto.
  - apply (linv_wait s); [done|done|done|auto| |]; cbn; intros j t Ht.
    + destruct (decide (i = j)) as [<-|Hne]; [rewrite lookup_insert|rewrite lookup_insert_ne by done; eauto]. eexists. split; [done|]. rewrite H in Ht. by injection Ht as <-.
    + apply lookup_insert_Some in Ht as [[<- <-]|[Hne Ht]]; eauto.
  - apply (linv_wait s); [done|done|done|auto| |]; cbn; intros j t Ht.
    + destruct (decide (i = j)) as [<-|Hne]; [rewrite lookup_insert|rewrite lookup_insert_ne by done; eauto]. eexists. split; [done|]. rewrite H in Ht. by injection Ht as <-.
    + apply lookup_insert_Some in Ht as [[<- <-]|[Hne Ht]]; eauto.
  - apply (linv_wait s); [done|done|apply sub_cons| | |]; cbn.
    + intros ce Hce. apply Hin in Hce as [?| ->]; auto.
    + intros j t Ht. destruct (decide (i = j)) as [<-|Hne]; [rewrite lookup_insert|rewrite lookup_insert_ne by done; eauto]. eexists. split; [done|]. rewrite H in Ht. by injection Ht as <-.
    + intros j t Ht. apply lookup_insert_Some in Ht as [[<- <-]|[Hne Ht]]; [|eauto]. eexists. split; [exact H|]. split; [done|]. right. exists r. split; [done|by left].
  - apply (linv_wait s); [done|done|done|auto| |]; cbn; intros j t Ht.
    + destruct (decide (i = j)) as [<-|Hne]; [rewrite lookup_insert|rewrite lookup_insert_ne by done; eauto]. eexists. split; [done|]. rewrite H in Ht. by injection Ht as <-.
    + apply lookup_insert_Some in Ht as [[<- <-]|[Hne Ht]]; eauto.
  - apply (linv_wait s); [done|done|apply sub_cons| |eauto|eauto]. intros ce Hce. apply Hin in Hce as [?| ->]; auto.
  - apply (linv_wait s); [done|done|apply sub_cons| |eauto|eauto]. intros ce Hce. apply Hin in Hce as [?| ->]; auto.
  - apply (linv_wait s); [done|done|apply sub_cons| |eauto|eauto]. intros ce Hce. apply Hin in Hce as [?| ->]; auto.
Qed.
Lemma reach_linv P s : reachable P s -> linv s.
Proof. revert s. apply (reach_ind P linv); [apply linv_init|]. intros s s' Hr V _ HT. by eapply linv_trans. Qed.
