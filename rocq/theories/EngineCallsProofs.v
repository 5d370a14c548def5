(** Proofs for C75. *)
From stdpp Require Import gmap strings list.
From Coq Require Import ZArith Lia.
From RecordUpdate Require Import RecordSet.
From Verif Require Import Err Tomb Order Validate ValidateSpec Snapshot Engine EngineSpec EngineMicro EngineSteps EngineLog EngineSafety EngineHandlers EngineObs EngineMore EngineCalls EngineCallsSpec.
Import RecordSetNotations.

Lemma reach_stepE E s l s' : reachable E s -> step E s l = Some s' -> reachable E s'.
Proof.
  intros [ls H] Hs. exists (ls ++ [l]). revert H. generalize init. induction ls as [|l0 ls IH]; intros s0; cbn.
  - intros [= ->]. by rewrite Hs.
  - destruct (step E s0 l0); [apply IH|done].
Qed.
Lemma crun_app E x ls1 ls2 : crun E x (ls1 ++ ls2) = match crun E x ls1 with Some x' => crun E x' ls2 | None => None end.
Proof. revert x. induction ls1 as [|l ls1 IH]; intros x; cbn; [done|]. destruct (cstep E x l); [apply IH|done]. Qed.
Lemma creach_ind E (Q : cstate -> Prop) : Q cinit -> (forall x l x', reachable E (x_e x) -> Q x -> cstep E x l = Some x' -> Q x') ->
  forall x, creachable E x -> reachable E (x_e x) /\ Q x.
Proof.
  intros H0 Hs x [ls Hls]. revert x Hls. induction ls as [|l ls IH] using rev_ind; intros x.
  - intros [= <-]. split; [by exists []|done].
  - rewrite crun_app. cbn. destruct (crun E cinit ls) as [x1|]; [|done]. destruct (cstep E x1 l) as [x2|] eqn:Hl; [|done]. intros [= <-].
    destruct (IH x1 eq_refl) as [Hr HQ]. split; [|by eapply Hs].
    destruct l; cbn in Hl; repeat case_match; simplify_eq; cbn; try done; by eapply reach_stepE.
Qed.
Lemma creach_reach E x : creachable E x -> reachable E (x_e x).
Proof. intros H. by destruct (creach_ind E (fun _ => True) I (fun _ _ _ _ _ _ => I) x H). Qed.

(** What a serving step adds to the log. *)
Lemma kill_tomb_ans e s : exists new, s_log (kill_tomb e s) = new ++ s_log s /\ first_answer new = None.
Proof. unfold kill_tomb. repeat case_match; cbn; first [by exists []|by exists [EvDying]]. Qed.
Lemma poll_ans E s : exists new, s_log (poll E s) = new ++ s_log s /\ first_answer new = None.
Proof. unfold poll. destruct (e_preempt E (s_polls s)); cbn; [apply kill_tomb_ans|by exists []]. Qed.
Lemma end_iteration_ans E s : exists new, s_log (end_iteration E s) = new ++ s_log s /\ first_answer new = None.
Proof.
  destruct (poll_ans E s) as (new & Hn & Ha). unfold end_iteration. cbv zeta. destruct (dying (poll E s) && all_others_stopped (poll E s)); [|eauto].
  exists (EvDead :: new). cbn. by rewrite Hn.
Qed.
Lemma first_answer_app l1 l2 : first_answer l1 = None -> first_answer (l1 ++ l2) = first_answer l2.
Proof. induction l1 as [|ev l1 IH]; [done|]. cbn. destruct (answer_of ev); [done|apply IH]. Qed.
Lemma new_events_app s s' new : s_log s' = new ++ s_log s -> new_events s s' = new.
Proof. intros H. unfold new_events. rewrite H, app_length. replace (length new + length (s_log s) - length (s_log s)) with (length new) by lia. by rewrite take_app. Qed.
Definition event_for (k : ecall) (a : eanswer) : option event :=
  match k, a with
  | KInstall n m, AnsInstall r => Some (EvInstall n m r)
  | KReport, AnsReport r => Some (EvReport r)
  | KWait, AnsWait e => Some (EvWait e)
  | _, _ => None
  end.
Definition the_answer (E : env) (s : state) (k : ecall) (late : bool) : eanswer :=
  match k with
  | KInstall n m => AnsInstall (if late then Some (EMsg MsgShuttingDown) else (got_install E n m s).1)
  | KReport => AnsReport (if late then dead_report E s else live_report E (poll E s))
  | KWait => AnsWait (wait_result E s)
  end.
Lemma serve_log E s k late s' : reachable E s -> step E s (serve_label k late) = Some s' ->
  exists ev pre mid, first_answer (new_events s s') = Some (the_answer E s k late) /\ event_for k (the_answer E s k late) = Some ev /\ s_log s' = pre ++ ev :: mid ++ s_log s.
Proof.
  intros Hr Hs. pose proof (reachable_inv E s Hr) as V.
  assert (forall ev a s1 mid, s_log s1 = mid ++ s_log s -> answer_of ev = Some a -> s' = end_iteration E (emit ev s1) ->
    event_for k a = Some ev -> exists ev pre mid, first_answer (new_events s s') = Some a /\ event_for k a = Some ev /\ s_log s' = pre ++ ev :: mid ++ s_log s) as Hloop.
  { intros ev a s1 mid H1 Ha -> He. destruct (end_iteration_ans E (emit ev s1)) as (new & Hn & Hf). cbn in Hn. rewrite H1 in Hn.
    exists ev, new, mid. split_and!; [|done|exact Hn]. rewrite (new_events_app _ _ (new ++ ev :: mid)).
    - rewrite first_answer_app by done. cbn. by rewrite Ha.
    - by rewrite Hn, <- app_assoc. }
  assert (forall ev a, answer_of ev = Some a -> s' = emit ev s -> event_for k a = Some ev ->
    exists ev pre mid, first_answer (new_events s s') = Some a /\ event_for k a = Some ev /\ s_log s' = pre ++ ev :: mid ++ s_log s) as Hdirect.
  { intros ev a Ha -> He. exists ev, [], []. split_and!; [|done|done]. rewrite (new_events_app _ _ [ev]) by done. cbn. by rewrite Ha. }
  destruct k as [n m| |], late; cbn in Hs; cbn [the_answer].
  - destruct (dying s); [|done]. injection Hs as <-. eapply Hdirect; [|reflexivity|]; reflexivity.
  - destruct (s_running s) eqn:Hrun; [|done]. destruct (got_install_micros E n m s V Hrun) as [Hm _]. destruct (micros_log E _ _ _ _ Hm V) as [mid Hmid].
    destruct (got_install E n m s) as [r s1]. cbn in Hmid |- *. injection Hs as <-. eapply Hloop; [exact Hmid| |reflexivity|]; reflexivity.
  - destruct (t_dead (s_tomb s)); [|done]. injection Hs as <-. eapply Hdirect; [|reflexivity|]; reflexivity.
  - destruct (s_running s); [|done]. injection Hs as <-. destruct (poll_ans E s) as (mid & Hm & _). eapply Hloop; [exact Hm| |reflexivity|]; reflexivity.
  - destruct (t_dead (s_tomb s)); [|done]. injection Hs as <-. eapply Hdirect; [|reflexivity|]; reflexivity.
  - destruct (t_dead (s_tomb s)); [|done]. injection Hs as <-. eapply Hdirect; [|reflexivity|]; reflexivity.
Qed.
Lemma installed_quiet new log n : (forall ev, ev ∈ new -> match ev with EvInstalled _ _ | EvUninstall _ => False | _ => True end) -> installed (new ++ log) n = installed log n.
Proof.
  induction new as [|ev new IH]; intros H; [done|]. cbn. rewrite IH by (intros e He; apply H; by right).
  specialize (H ev (elem_of_list_here _ _)). by destruct ev.
Qed.
Lemma serve_right E s k late s' : reachable E s -> step E s (serve_label k late) = Some s' ->
  exists a new, first_answer (new_events s s') = Some a /\ s_log s' = new ++ s_log s /\ new <> [] /\ right_answer E k a (s_log s) (s_log s').
Proof.
  intros Hr Hs. destruct (serve_log E s k late s' Hr Hs) as (ev & pre & mid & Ha & He & Hl).
  exists (the_answer E s k late), (pre ++ ev :: mid). split_and!; [done|by rewrite Hl, <- app_assoc|by destruct pre|].
  pose proof (reach_stepE E s _ s' Hr Hs) as Hr'. pose proof (reachable_inv E s Hr) as V. pose proof (dead_running E s Hr) as Hdr.
  destruct k as [n m| |]; cbn [the_answer] in *; cbn in He; injection He as <-; unfold right_answer.
  - destruct late; cbn [serve_label] in Hs.
    + destruct (install_refused E s n m s' Hr Hs) as (H1 & H2 & _). split_and!; [by left|done|]. intros _ n'. by rewrite H2.
    + destruct (install_result E s n m s' Hr Hs) as (r' & new & H1 & H2 & H3 & H4 & H5).
      set (r := (got_install E n m s).1) in *.
      assert (new = pre ++ EvInstall n m r :: mid) as Hnew. { apply (app_inv_tail (s_log s)). rewrite <- H1, Hl. by rewrite <- app_assoc. }
      assert (r = r') as ->.
      { destruct r' as [e'|].
        - destruct (H4 ltac:(done)) as [H4' _]. destruct (H4' (EvInstall n m r)) as [Hx|[Hx|Hx]]; [rewrite Hnew; set_solver|by injection Hx|done|done].
        - destruct r as [e|] eqn:Her; [exfalso|done]. destruct (proj1 H3 eq_refl) as [Hno _]. destruct (H5 eq_refl) as [Hyes _].
          assert (s_manifolds s' = s_manifolds s) as Hm.
          { cbn [step] in Hs. destruct (s_running s); [|done]. subst r. destruct (got_install E n m s) as [r1 s1] eqn:Hg. cbn in Her. subst r1. injection Hs as <-.
            destruct (end_iteration_same E (emit (EvInstall n m (Some e)) s1)) as (_ & -> & _). cbn.
            unfold got_install in Hg. repeat case_match; simplify_eq; done. }
          rewrite (l_inst E s' (proj2 (reachable_linv E s' Hr'))), Hm, <- (l_inst E s (proj2 (reachable_linv E s Hr))), Hno in Hyes. done. }
      assert (s_running s = true) as Hrun by (cbn in Hs; by destruct (s_running s)).
      split_and!.
      * right. split; [|done]. intros Hd%Hdr. congruence.
      * intros Hx. by destruct (H5 Hx).
      * intros Hne n'. rewrite H1. apply installed_quiet. intros ev Hev. destruct (proj1 (H4 Hne) ev Hev) as [-> |[-> | ->]]; done.
  - split.
    + destruct late; cbn [serve_label step] in Hs.
      * destruct (t_dead (s_tomb s)) eqn:Hd; [|done]. apply (running_dead s V) in Hd. cbn. split; [|done]. intros _. by apply Hdr.
      * destruct (s_running s) eqn:Hrun; [|done]. unfold live_report. split; [by destruct (dying (poll E s))|]. intros Hx%Hdr. congruence.
    + exists (mid ++ s_log s). split_and!; [eauto|eexists (pre ++ [_]); by rewrite Hl, <- app_assoc|]. by eapply report_true.
  - assert (t_dead (s_tomb s) = true /\ s_log s' = EvWait (wait_result E s) :: s_log s) as [Hd Hl']. { destruct late; cbn in Hs; destruct (t_dead (s_tomb s)); try done; by injection Hs as <-. }
    split; [by apply Hdr, running_dead|]. eapply (wait_is_worst E s' []); [done|]. by rewrite Hl'.
Qed.

(** ** The history *)
Lemma log_at_app x x' new t : s_log (x_e x') = new ++ s_log (x_e x) -> t <= now x -> log_at x' t = log_at x t.
Proof.
  intros H Ht. unfold log_at, now in *. rewrite H, app_length. rewrite drop_app_ge by lia. f_equal. lia.
Qed.
Lemma log_at_now x : log_at x (now x) = s_log (x_e x).
Proof. unfold log_at, now. by replace (length (s_log (x_e x)) - length (s_log (x_e x))) with 0 by lia. Qed.
Section hist.
Variable E : env.
Definition served (h : list hist) (x : cstate) (i : nat) (k : ecall) (a : eanswer) (t1 t2 : nat) : Prop :=
  exists u u', HServed i k a u u' ∈ h /\ t1 <= u /\ u < u' /\ u' <= t2 /\ right_answer E k a (log_at x u) (log_at x u').
Definition called (h : list hist) (i : nat) : Prop := exists k t, HCall i k t ∈ h.
Definition was_served (h : list hist) (i : nat) : Prop := exists k a u u', HServed i k a u u' ∈ h.
Definition was_returned (h : list hist) (i : nat) : Prop := exists k a t, HRet i k a t ∈ h.
Definition first_time (h : hist) : nat := match h with HCall _ _ t | HRet _ _ _ t | HServed _ _ _ t _ => t end.
Definition last_time (h : hist) : nat := match h with HCall _ _ t | HRet _ _ _ t | HServed _ _ _ _ t => t end.
Lemma served_mono h h' x x' i k a t1 t2 t2' : served h x i k a t1 t2 -> t2 <= now x -> t2 <= t2' -> (exists new, s_log (x_e x') = new ++ s_log (x_e x)) -> h ⊆ h' -> served h' x' i k a t1 t2'.
Proof.
  intros (u & u' & H1 & H2 & H3 & H4 & H5) Hle Hle2 [new Hn] Hs. exists u, u'. split_and!; try done; [by apply Hs|lia|].
  by rewrite !(log_at_app x x' new) by (done || lia).
Qed.
(** One event of the history, given the older ones. *)
Definition hist_ok (x : cstate) (ev : hist) (post : list hist) : Prop :=
  (forall ev', ev' ∈ post -> last_time ev' <= first_time ev) /\ first_time ev <= last_time ev /\ last_time ev <= now x /\
  match ev with
  | HCall i k t => ~ called post i /\ ~ was_served post i /\ ~ was_returned post i
  | HServed i k a u u' => ~ was_served post i /\ ~ was_returned post i /\ (exists t, HCall i k t ∈ post) /\
      u < u' /\ right_answer E k a (log_at x u) (log_at x u')
  | HRet i k a t2 => ~ was_returned post i /\ exists t1, HCall i k t1 ∈ post /\ served post x i k a t1 t2
  end.
Lemma hist_ok_mono x x' ev post : hist_ok x ev post -> (exists new, s_log (x_e x') = new ++ s_log (x_e x)) -> hist_ok x' ev post.
Proof.
  intros (H1 & H2 & H3 & H4) Hn. assert (now x <= now x') as Hle. { destruct Hn as [new Hn]. unfold now. rewrite Hn, app_length. lia. }
  split_and!; [done|done|lia|]. destruct ev; [done| |].
  - destruct H4 as (A1 & A2 & A3 & A4 & A5). split_and!; [done|done|done|done|].
    destruct Hn as [new Hn]. cbn in H2, H3. by rewrite !(log_at_app x x' new) by (done || lia).
  - destruct H4 as (A1 & t1 & A2 & A3). split; [done|]. exists t1. split; [done|]. eapply served_mono; try done.
Qed.
Fixpoint hists (x : cstate) (h : list hist) : Prop := match h with [] => True | ev :: h' => hist_ok x ev h' /\ hists x h' end.
Lemma hists_mono x x' h : hists x h -> (exists new, s_log (x_e x') = new ++ s_log (x_e x)) -> hists x' h.
Proof. intros H Hn. induction h as [|ev h IH]; [done|]. destruct H as [H1 H2]. split; [by eapply hist_ok_mono|by apply IH]. Qed.
Lemma hists_split x h pre ev post : hists x h -> h = pre ++ ev :: post -> hist_ok x ev post.
Proof. intros H ->. induction pre as [|e pre IH]; [apply H|]. apply IH, H. Qed.
Lemma hists_last x h ev : hists x h -> ev ∈ h -> last_time ev <= now x.
Proof. intros H Hin. apply elem_of_list_split in Hin as (pre & post & ->). eapply hists_split in H as (_ & _ & H & _); [exact H|done]. Qed.
Definition pc_ok (x : cstate) (h : list hist) (i : nat) (p : option epc) : Prop :=
  match p with
  | None => ~ called h i /\ ~ was_served h i /\ ~ was_returned h i
  | Some (Asking k) => ~ was_served h i /\ ~ was_returned h i /\ exists t, HCall i k t ∈ h
  | Some (Holding k a) => ~ was_returned h i /\ exists t, HCall i k t ∈ h /\ served h x i k a t (now x)
  | Some Returned => was_returned h i
  end.
Definition hinv (x : cstate) : Prop := hists x (x_hist x) /\ forall i, pc_ok x (x_hist x) i (x_calls x !! i).
Definition about (ev : hist) : nat := match ev with HCall i _ _ | HServed i _ _ _ _ | HRet i _ _ _ => i end.
Lemma pc_ok_other x x' h ev i p : pc_ok x h i p -> about ev <> i -> (exists new, s_log (x_e x') = new ++ s_log (x_e x)) -> pc_ok x' (ev :: h) i p.
Proof.
  intros H Hne Hn. assert (now x <= now x') as Hle. { destruct Hn as [new Hn]. unfold now. rewrite Hn, app_length. lia. }
  assert (forall ev', about ev' = i -> ev' ∈ ev :: h -> ev' ∈ h) as Hin by (intros ev' Ha [->|?]%elem_of_cons; [done|done]).
  assert (called (ev :: h) i -> called h i) as H1 by (intros (k & t & Hx); exists k, t; by apply Hin).
  assert (was_served (ev :: h) i -> was_served h i) as H2 by (intros (k & a & t & t' & Hx); exists k, a, t, t'; by apply Hin).
  assert (was_returned (ev :: h) i -> was_returned h i) as H3 by (intros (k & a & t & Hx); exists k, a, t; by apply Hin).
  destruct p as [[k|k a|]|]; cbn in *.
  - destruct H as (A1 & A2 & t & A3). split_and!; [tauto|tauto|]. exists t. by right.
  - destruct H as (A1 & t & A2 & A3). split; [tauto|]. exists t. split; [by right|]. eapply served_mono; try done. intros y Hy. by right.
  - destruct H as (k & a & t & Hx). exists k, a, t. by right.
  - tauto.
Qed.
Lemma pc_ok_mono x x' h i p : pc_ok x h i p -> (exists new, s_log (x_e x') = new ++ s_log (x_e x)) -> pc_ok x' h i p.
Proof.
  intros H Hn. assert (now x <= now x') as Hle. { destruct Hn as [new Hn]. unfold now. rewrite Hn, app_length. lia. }
  destruct p as [[k|k a|]|]; cbn in *; [done| |done|done]. destruct H as (A1 & t & A2 & A3). split; [done|]. exists t. split; [done|]. eapply served_mono; done.
Qed.
Lemma hinv_step x l x' : reachable E (x_e x) -> hinv x -> cstep E x l = Some x' -> hinv x'.
Proof.
  intros Hr [H1 H2] Hs. destruct l as [i k|i late|i|l]; cbn in Hs.
  - destruct (x_calls x !! i) eqn:Hi; [done|]. injection Hs as <-.
    assert (exists new, s_log (x_e (x <| x_calls ::= <[i:=Asking k]> |> <| x_hist ::= cons (HCall i k (now x)) |>)) = new ++ s_log (x_e x)) as Hn by (by exists []).
    pose proof (H2 i) as Hp. rewrite Hi in Hp. split.
    + cbn. split; [|by eapply hists_mono]. split_and!; [intros ev Hev; by eapply hists_last|done|done|apply Hp..].
    + intros j. cbn. destruct (decide (i = j)) as [<-|Hne].
      * rewrite lookup_insert. cbn. destruct Hp as (A1 & A2 & A3). split_and!.
        -- intros (k' & a & u & u' & [?|?]%elem_of_cons); [done|]. apply A2. by exists k', a, u, u'.
        -- intros (k' & a & u & [?|?]%elem_of_cons); [done|]. apply A3. by exists k', a, u.
        -- exists (now x). by left.
      * rewrite lookup_insert_ne by done. eapply pc_ok_other; [apply H2|done|done].
  - destruct (x_calls x !! i) as [[k|k a|]|] eqn:Hi; try done. destruct (step E (x_e x) (serve_label k late)) as [s'|] eqn:Hst; [|done].
    destruct (serve_right E _ _ _ _ Hr Hst) as (a & new & Ha & Hl & Hne0 & Hok). rewrite Ha in Hs. injection Hs as <-.
    set (x' := x <| x_e := s' |> <| x_calls ::= <[i:=Holding k a]> |> <| x_hist ::= cons (HServed i k a (now x) (length (s_log s'))) |>).
    assert (s_log (x_e x') = new ++ s_log (x_e x)) as Hn' by done.
    assert (exists new, s_log (x_e x') = new ++ s_log (x_e x)) as Hn by (by exists new).
    assert (now x < length (s_log s')) as Hlt by (unfold now; rewrite Hl, app_length; destruct new; [done|cbn; lia]).
    assert (now x' = length (s_log s')) as Hnow by done.
    assert (right_answer E k a (log_at x' (now x)) (log_at x' (length (s_log s')))) as Hra.
    { rewrite (log_at_app x x' new) by done. rewrite log_at_now, <- Hnow, log_at_now. exact Hok. }
    pose proof (H2 i) as Hp. rewrite Hi in Hp. destruct Hp as (A1 & A2 & t & A3). split.
    + cbn. split; [|by eapply hists_mono]. split_and!; [intros e Hev; by eapply hists_last|cbn; lia|done|done|done|eauto|done|done].
    + intros j. cbn [x_hist x_calls x']. destruct (decide (i = j)) as [<-|Hne].
      * cbn. rewrite lookup_insert. split.
        -- intros (k' & a' & u & [?|?]%elem_of_cons); [done|]. apply A2. by exists k', a', u.
        -- exists t. split; [by right|]. exists (now x), (length (s_log s')). split_and!; try done; [by left|].
           eapply hists_last in A3; [exact A3|done].
      * cbn. rewrite lookup_insert_ne by done. apply (pc_ok_other x); [apply H2|done|done].
  - destruct (x_calls x !! i) as [[k|k a|]|] eqn:Hi; try done. injection Hs as <-.
    assert (exists new, s_log (x_e (x <| x_calls ::= <[i:=Returned]> |> <| x_hist ::= cons (HRet i k a (now x)) |>)) = new ++ s_log (x_e x)) as Hn by (by exists []).
    pose proof (H2 i) as Hp. rewrite Hi in Hp. destruct Hp as (A1 & t & A2 & A3). split.
    + cbn. split; [|by eapply hists_mono]. split_and!; [intros ev Hev; by eapply hists_last|done|done|done|]. exists t. split; [done|]. exact A3.
    + intros j. cbn. destruct (decide (i = j)) as [<-|Hne].
      * rewrite lookup_insert. exists k, a, (now x). by left.
      * rewrite lookup_insert_ne by done. eapply pc_ok_other; [apply H2|done|done].
  - destruct (serves l); [done|]. destruct (step E (x_e x) l) as [s'|] eqn:Hst; [|done]. injection Hs as <-.
    assert (exists new, s_log (x_e (x <| x_e := s' |>)) = new ++ s_log (x_e x)) as Hn by (by eapply step_log).
    split; [by eapply hists_mono|]. intros i. eapply pc_ok_mono; [apply H2|done].
Qed.
End hist.
Lemma creach_hinv E x : creachable E x -> hinv E x.
Proof. intros H. eapply (creach_ind E (hinv E)); [|intros; by eapply hinv_step|done]. split; [done|]. intros i. cbn. rewrite lookup_empty. split_and!; [intros (? & ? & Hx)|intros (? & ? & ? & ? & Hx)|intros (? & ? & ? & Hx)]; by apply elem_of_nil in Hx. Qed.

(** ** C75 *)
Lemma call_linear E x pre i k a t2 post : creachable E x -> x_hist x = pre ++ HRet i k a t2 :: post ->
  exists t1 u u', HCall i k t1 ∈ post /\ HServed i k a u u' ∈ post /\ t1 <= u /\ u < u' /\ u' <= t2 /\ right_answer E k a (log_at x u) (log_at x u').
Proof.
  intros Hr Hh. destruct (creach_hinv E x Hr) as [H _]. destruct (hists_split E x _ _ _ _ H Hh) as (_ & _ & _ & _ & t1 & Hc & u & u' & H1 & H2 & H3 & H4 & H5).
  by exists t1, u, u'.
Qed.
Lemma hist_order E x pre ev post ev' : creachable E x -> x_hist x = pre ++ ev :: post -> ev' ∈ post -> last_time ev' <= first_time ev.
Proof. intros Hr Hh Hin. destruct (creach_hinv E x Hr) as [H _]. destruct (hists_split E x _ _ _ _ H Hh) as (Ho & _). by apply Ho. Qed.
Lemma call_once E x pre ev post : creachable E x -> x_hist x = pre ++ ev :: post ->
  match ev with HCall i _ _ => ~ called post i | HServed i _ _ _ _ => ~ was_served post i | HRet i _ _ _ => ~ was_returned post i end.
Proof. intros Hr Hh. destruct (creach_hinv E x Hr) as [H _]. destruct (hists_split E x _ _ _ _ H Hh) as (_ & _ & _ & Ho). destruct ev; apply Ho. Qed.
Lemma served_disjoint E x i k a u u' j k' a' v v' : creachable E x -> HServed i k a u u' ∈ x_hist x -> HServed j k' a' v v' ∈ x_hist x -> i <> j -> u' <= v \/ v' <= u.
Proof.
  intros Hr H1 H2 Hne. apply elem_of_list_split in H1 as (p1 & q1 & E1). pose proof E1 as E1'. rewrite E1 in H2.
  apply elem_of_app in H2 as [H2|[H2|H2]%elem_of_cons].
  - left. apply elem_of_list_split in H2 as (p2 & q2 & ->). rewrite <- app_assoc in E1. cbn in E1.
    apply (hist_order E x _ _ _ (HServed i k a u u') Hr E1). apply elem_of_app. right. by left.
  - by injection H2 as -> _ _ _ _.
  - right. exact (hist_order E x _ _ _ _ Hr E1 H2).
Qed.

Lemma never_blocked E x i k : creachable E x -> x_calls x !! i = Some (Asking k) -> k <> KWait \/ EvDead ∈ s_log (x_e x) ->
  exists late x' a, cstep E x (CServe i late) = Some x' /\ x_calls x' !! i = Some (Holding k a).
Proof.
  intros Hc Hi Hk. pose proof (creach_reach E x Hc) as Hr. pose proof (reachable_inv E _ Hr) as V. pose proof (dead_running E _ Hr) as Hdr.
  assert (exists late s', step E (x_e x) (serve_label k late) = Some s') as (late & s' & Hs).
  { destruct (s_running (x_e x)) eqn:Hrun.
    - exists false. destruct k as [n m| |]; cbn; rewrite ?Hrun; [destruct (got_install E n m (x_e x)); eauto|eauto|].
      destruct Hk as [Hk|Hk%Hdr]; [done|congruence].
    - exists true. pose proof Hrun as Hd. apply (running_dead _ V) in Hd. pose proof (v_run _ V) as Hv. rewrite Hrun in Hv. destruct Hv as (_ & _ & Hdy).
      destruct k as [n m| |]; cbn; rewrite ?Hd, ?Hdy; eauto. }
  destruct (serve_right E _ _ _ _ Hr Hs) as (a & new & Ha & _). eexists late, _, a. cbn. rewrite Hi, Hs, Ha. split; [reflexivity|]. cbn. by rewrite lookup_insert.
Qed.
Lemma wait_blocked E x i late x' : creachable E x -> x_calls x !! i = Some (Asking KWait) -> cstep E x (CServe i late) = Some x' -> EvDead ∈ s_log (x_e x).
Proof.
  intros Hc Hi Hs. pose proof (creach_reach E x Hc) as Hr. cbn in Hs. rewrite Hi in Hs. cbn in Hs. destruct (t_dead (s_tomb (x_e x))) eqn:Hd; [|done].
  apply (dead_running E _ Hr), running_dead; [by apply (reachable_inv E)|done].
Qed.
Lemma answer_returns E x i k a : x_calls x !! i = Some (Holding k a) -> exists x', cstep E x (CRet i) = Some x' /\ x_hist x' = HRet i k a (now x) :: x_hist x.
Proof. intros Hi. eexists. cbn. by rewrite Hi. Qed.

(** The log between two moments. *)
Lemma log_at_split x t t' : t <= t' -> exists new, log_at x t' = new ++ log_at x t.
Proof.
  intros Hle. unfold log_at. set (l := s_log (x_e x)). exists (take (length l - t - (length l - t')) (drop (length l - t') l)).
  replace (drop (length l - t) l) with (drop (length l - t - (length l - t')) (drop (length l - t') l)); [by rewrite take_drop|].
  rewrite drop_drop. f_equal. lia.
Qed.
Lemma log_at_pre x t : exists pre, s_log (x_e x) = pre ++ log_at x t.
Proof. unfold log_at. set (l := s_log (x_e x)). exists (take (length l - t) l). by rewrite take_drop. Qed.
Lemma worst_dead E x t t' : creachable E x -> t <= t' -> EvDead ∈ log_at x t -> worst_of (e_cfg E) (log_at x t') = worst_of (e_cfg E) (log_at x t).
Proof.
  intros Hc Hle Hd. destruct (log_at_split x t t' Hle) as [new Hn]. destruct (log_at_pre x t') as [pre Hp]. rewrite Hn in *. clear Hn.
  revert pre Hp. induction new as [|ev new IH]; intros pre Hp; [done|]. cbn [app].
  assert (~ forbidden_when_dead ev) as Hf. { eapply (dead_no_events E _ pre ev (new ++ log_at x t)); [by apply creach_reach|done|apply elem_of_app; by right]. }
  rewrite <- (IH (pre ++ [ev])) by (by rewrite <- app_assoc). by destruct ev; try (destruct Hf; exact I).
Qed.

(** After some Wait has returned. *)
Lemma after_wait E x pre j k a t mid t1 mid2 i e t0 post : creachable E x ->
  x_hist x = pre ++ HRet j k a t :: mid ++ HCall j k t1 :: mid2 ++ HRet i KWait (AnsWait e) t0 :: post ->
  match k, a with
  | KInstall _ _, AnsInstall r => r = Some (EMsg MsgShuttingDown)
  | KReport, AnsReport r => rp_state r = EStopped /\ rp_error r = e
  | KWait, AnsWait e' => e' = e
  | _, _ => False
  end.
Proof.
  intros Hc Hh.
  assert (x_hist x = (pre ++ HRet j k a t :: mid ++ HCall j k t1 :: mid2) ++ HRet i KWait (AnsWait e) t0 :: post) as Hh2.
  { rewrite Hh. rewrite <- !app_assoc. cbn. by rewrite <- app_assoc. }
  destruct (call_linear E x _ _ _ _ _ _ Hc Hh2) as (t1w & uw & uw' & _ & _ & W1 & W2 & W3 & Wd & We).
  assert (x_hist x = (pre ++ HRet j k a t :: mid) ++ HCall j k t1 :: (mid2 ++ HRet i KWait (AnsWait e) t0 :: post)) as Hh3.
  { rewrite Hh. by rewrite <- !app_assoc. }
  assert (t0 <= t1) as Ht. { apply (hist_order E x _ _ _ (HRet i KWait (AnsWait e) t0) Hc Hh3). apply elem_of_app. right. by left. }
  destruct (call_linear E x _ _ _ _ _ _ Hc Hh) as (t1' & u & u' & C1 & _ & U1 & U2 & U3 & Ua).
  assert (t1' = t1) as ->.
  { pose proof (call_once E x _ _ _ Hc Hh3) as Hn. cbn in Hn. apply elem_of_app in C1 as [C1|[C1|C1]%elem_of_cons].
    - exfalso. apply elem_of_list_split in C1 as (p & q & ->).
      assert (x_hist x = (pre ++ HRet j k a t :: p) ++ HCall j k t1' :: (q ++ HCall j k t1 :: mid2 ++ HRet i KWait (AnsWait e) t0 :: post)) as Hh4.
      { rewrite Hh. repeat (rewrite <- app_assoc; cbn [app]). done. }
      pose proof (call_once E x _ _ _ Hc Hh4) as Hn'. apply Hn'. exists k, t1. apply elem_of_app. right. by left.
    - by injection C1.
    - destruct Hn. by exists k, t1'. }
  assert (EvDead ∈ log_at x u) as Hd. { destruct (log_at_split x uw u) as [new ->]; [lia|]. apply elem_of_app. by right. }
  assert (worst_of (e_cfg E) (log_at x u) = worst_of (e_cfg E) (log_at x uw)) as Hw by (apply worst_dead; [done|lia|done]).
  destruct k as [n m| |], a as [r|r|e']; cbn in Ua; try done.
  - destruct Ua as [[[_ ?]|[Hx _]] _]; [done|]. by destruct Hx.
  - destruct Ua as (Hst & bt & (n1 & Hb) & (n2 & Hb2) & Hrep). assert (rp_state r = EStopped) as Hs by (by apply Hst). split; [done|].
    destruct Hrep as [_ Hrep]. rewrite Hs in Hrep. destruct Hrep as [_ ->]. rewrite We.
    assert (worst_of (e_cfg E) bt = worst_of (e_cfg E) (log_at x uw)) as ->.
    { rewrite <- Hw. assert (exists v, u <= v /\ bt = log_at x v) as (v & Hv & ->); [|by apply worst_dead].
      destruct (log_at_pre x u') as [p Hp]. rewrite Hb2 in Hp.
      assert (u <= now x) as Hu. { destruct (creach_hinv E x Hc) as [Hhs _]. assert (last_time (HRet j KReport (AnsReport r) t) <= now x) as Hl; [|cbn in Hl; lia].
        eapply hists_last; [exact Hhs|]. rewrite Hh. apply elem_of_app. right. by left. }
      exists (length bt). split.
      - rewrite Hb, app_length. unfold log_at. rewrite drop_length. unfold now in Hu. lia.
      - unfold log_at. rewrite Hp, app_assoc, app_length. replace (length (p ++ n2) + length bt - length bt) with (length (p ++ n2)) by lia. by rewrite drop_app. }
    by destruct (c_filter (e_cfg E)).
  - destruct Ua as [_ ->]. rewrite We, Hw. done.
Qed.
Lemma installed_gone new log n m : installed log n = Some m -> installed (new ++ log) n = None -> EvUninstall n ∈ new.
Proof.
  intros H. induction new as [|ev new IH]; cbn; [congruence|]. intros Hn. destruct ev; try (right; by apply IH).
  - case_bool_decide; [done|]. right. by apply IH.
  - case_bool_decide as Hb; [subst; by left|]. right. by apply IH.
Qed.
Lemma install_exclusive E x i n m u u' j m' v v' : creachable E x -> HServed i (KInstall n m) (AnsInstall None) u u' ∈ x_hist x -> HServed j (KInstall n m') (AnsInstall None) v v' ∈ x_hist x ->
  i <> j -> u <= v -> exists new, log_at x v = new ++ log_at x u' /\ EvUninstall n ∈ new.
Proof.
  intros Hc H1 H2 Hne Hle. destruct (creach_hinv E x Hc) as [Hh _].
  pose proof H1 as S1. apply elem_of_list_split in S1 as (p1 & q1 & E1). destruct (hists_split E x _ _ _ _ Hh E1) as (_ & _ & _ & _ & _ & _ & Hlt1 & _ & A1 & _).
  pose proof H2 as S2. apply elem_of_list_split in S2 as (p2 & q2 & E2). destruct (hists_split E x _ _ _ _ Hh E2) as (_ & _ & _ & _ & _ & _ & Hlt2 & A2 & _ & _).
  destruct (served_disjoint E x _ _ _ _ _ _ _ _ _ _ Hc H1 H2 Hne) as [Hd|Hd]; [|lia].
  destruct (log_at_split x u' v Hd) as [new Hn]. exists new. split; [done|].
  destruct A2 as [[_ A2]|[_ A2]]; [done|]. destruct (proj1 A2 eq_refl) as [A3 _]. rewrite Hn in A3. by eapply installed_gone, A3; apply A1.
Qed.
Lemma once_call E x pre i k t post : creachable E x -> x_hist x = pre ++ HCall i k t :: post -> forall k' t', HCall i k' t' ∉ post.
Proof. intros Hr Hh k' t' Hx. apply (call_once E x _ _ _ Hr Hh). by exists k', t'. Qed.
Lemma once_served E x pre i k a u u' post : creachable E x -> x_hist x = pre ++ HServed i k a u u' :: post -> forall k' a' v v', HServed i k' a' v v' ∉ post.
Proof. intros Hr Hh k' a' v v' Hx. apply (call_once E x _ _ _ Hr Hh). by exists k', a', v, v'. Qed.
Lemma once_ret E x pre i k a t post : creachable E x -> x_hist x = pre ++ HRet i k a t :: post -> forall k' a' t', HRet i k' a' t' ∉ post.
Proof. intros Hr Hh k' a' t' Hx. apply (call_once E x _ _ _ Hr Hh). by exists k', a', t'. Qed.
Lemma call_then E x pre i k t post i' k' a' t' : creachable E x -> x_hist x = pre ++ HCall i k t :: post -> HRet i' k' a' t' ∈ post -> t' <= t.
Proof. intros Hr Hh Hin. exact (hist_order E x _ _ _ _ Hr Hh Hin). Qed.
