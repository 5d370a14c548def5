(** What the forest needs to know about a runner. *)
From stdpp Require Import gmap strings list.
From Coq Require Import ZArith.
From RecordUpdate Require Import RecordSet.
From Verif Require Import Err Tomb Runner RunnerSpec RunnerProgressSpec RunnerInv RunnerLog RunnerGor RunnerHist RunnerThms RunnerCalls RunnerAnswers RunnerProgress RunnerMore.
Import RecordSetNotations.

(** ** Which steps say that a start func returned, and that a worker finished *)
Definition key (ev : event) : bool := match ev with EvStartRet _ _ (inl _) => true | _ => false end.
Definition keys (c : core) : list event := filter (fun ev => key ev = true) (c_log c).
Definition same (c c' : core) : Prop := keys c' = keys c /\ c_ended c' = c_ended c.
Lemma same_cons c c' ev : key ev = false -> c_log c' = ev :: c_log c -> c_ended c' = c_ended c -> same c c'.
Proof. intros H H' He. split; [|done]. unfold keys. rewrite H', filter_cons_False; [done|by rewrite H]. Qed.
Lemma same_log c c' : c_log c' = c_log c -> c_ended c' = c_ended c -> same c c'.
Proof. intros H He. split; [|done]. unfold keys. by rewrite H. Qed.
Lemma same_emit ev c c' : key ev = false -> same c c' -> same c (emit ev c').
Proof. intros H [H1 H2]. destruct (same_cons c' (emit ev c') ev H eq_refl eq_refl) as [H3 H4]. split; congruence. Qed.
Lemma same_to c c1 c' : same c c1 -> c_log c' = c_log c1 -> c_ended c' = c_ended c1 -> same c c'.
Proof. intros [H1 H2] H3 H4. destruct (same_log c1 c' H3 H4). split; congruence. Qed.
Lemma same_loop p c c' : same c c' -> same c (set_loop p c').
Proof. intros H. by apply (same_to c c'). Qed.
Lemma same_refl c : same c c.
Proof. done. Qed.
Lemma same_kill_worker id c c1 : same c c1 -> same c (kill_worker id c1).
Proof.
  intros H. unfold kill_worker. destruct (c_workers c1 !! id) as [i|]; [|done].
  eapply same_to; [|reflexivity|reflexivity]. destruct (i_worker i) as [[g w]|]; [by apply same_emit|done].
Qed.
Lemma same_kill_all c c1 : same c c1 -> same c (kill_all c1).
Proof. intros H. unfold kill_all. generalize (elements (dom (c_workers c1))). intros l. induction l as [|x l IH]; cbn; [done|]. by apply same_kill_worker. Qed.
Lemma same_remove id d a c c1 : same c c1 -> same c (remove_worker id d a c1).
Proof. intros H. unfold remove_worker. case_bool_decide; apply same_loop; [|apply (same_to c (emit (EvRemoved id d) (c1 <| c_workers ::= delete id |>))); [|done..]]; (apply same_emit; [done|]); by apply (same_to c c1). Qed.
Lemma same_spawn id f x d c c1 : same c c1 -> same c (spawn id f x d c1).
Proof. intros H. unfold spawn. apply same_emit; [done|]. by apply (same_to c c1). Qed.
Lemma same_start P i id f c c1 : same c c1 -> same c (start_worker P i id f c1).
Proof.
  intros H. unfold start_worker. destruct (c_dying c1); [by apply same_loop, same_emit|].
  destruct (c_workers c1 !! id); apply same_loop; [by apply same_emit|]. apply same_spawn, same_emit; [done|]. apply same_emit; [done|]. by apply (same_to c c1).
Qed.
Lemma same_done P g id e c c1 : same c c1 -> same c (worker_done P g id e c1).
Proof.
  intros H. unfold worker_done.
  assert (same c (emit (EvDone g id e (c_now c1)) (set_pc g WGone c1))) as Hc by (apply same_emit; [done|]; by apply (same_to c c1)).
  revert Hc. generalize (emit (EvDone g id e (c_now c1)) (set_pc g WGone c1)). intros c2 H2. cbv zeta.
  destruct (c_workers c2 !! id) as [i|]; [|by eapply same_to].
  assert (same c (match i_start i with
      | None => remove_worker id (i_done i) ABcast c2
      | Some f => set_loop (LDo ABcast) (spawn id f None (i_delay i) (c2 <| c_workers ::= <[id := i <| i_delay := r_delay P |>]> |>))
      end)) as Hre.
  { destruct (i_start i); [|by apply same_remove]. apply same_loop, same_spawn. by apply (same_to c c2). }
  destruct e as [x|].
  - destruct (r_isFatal P x).
    + destruct (c_dying c2); [|apply same_emit; [done|]]; apply same_remove; by apply (same_to c c2).
    + destruct (negb (r_shouldRestart P x)); [by apply same_remove|done].
  - destruct (negb (i_stopping i)); [by apply same_remove|done].
Qed.
Lemma same_set g id w c c1 : same c c1 -> same c (set_worker g id w c1).
Proof.
  intros H. unfold set_worker. destruct (c_workers c1 !! id) as [i|]; [|by eapply same_to]. cbv zeta.
  apply same_loop. destruct (_ || _); [apply same_kill_worker|]; (apply same_emit; [done|]); by apply (same_to c c1).
Qed.
Lemma same_cstep P c l c' : cstep P c l = Some c' -> match l with KStartRet _ (inl _) | KEnd _ _ => True | _ => same c c' end.
Proof.
  destruct l; cbn [cstep]; intros Hs; try done; repeat case_match; try done; simplify_eq;
    try (by apply same_log); try (by apply same_emit, same_log); try (by eapply same_cons); 
    try (eapply same_to; [|reflexivity|reflexivity]; first [by apply same_kill_all|by apply same_kill_worker]);
    try (by apply same_set); try (by apply same_done); try (by apply same_start).
  unfold kill_tomb. eapply same_to; [|reflexivity|reflexivity]. destruct (t_dying (c_tomb c)); [done|by apply same_emit].
Qed.
Lemma same_step P s l s' : step P s l = Some s' -> match l with LCore (KStartRet _ (inl _)) | LCore (KEnd _ _) => True | _ => same (s_core s) (s_core s') end.
Proof.
  destruct l; cbn [step].
  1:{ destruct (own l); [|done]. destruct (cstep P (s_core s) l) as [c'|] eqn:Hc; [|done]. pose proof (same_cstep P _ l c' Hc) as Hm. cbn [negb].
    destruct l; try done; try (by intros [= <-]).
    destruct (c_loop (s_core s)) as [|a| |]; try (by intros [= <-]). destruct (_ && _); [done|]. destruct a; try (by intros [= <-]).
      destruct (s_calls s !! c) as [[]|]; try done. intros [= <-]. cbn. by apply same_emit. }
  all: intros Hs; repeat case_match; try done; simplify_eq; try (by apply same_refl); try (by apply same_emit);
    try (match goal with H : cstep ?Q (s_core _) ?l = Some ?c |- _ => pose proof (same_cstep Q _ l c H) as Hm end; first [exact Hm|by apply same_emit]).
  all: unfold deliver; repeat case_match; try (by apply same_refl); try (by apply same_emit).
Qed.

Lemma ret_step P s l s' k id w : step P s l = Some s' -> EvStartRet k id (inl w) ∈ rlog s' -> EvStartRet k id (inl w) ∈ rlog s \/ l = LCore (KStartRet k (inl w)).
Proof.
  intros Hs Hin. pose proof (same_step P s l s' Hs) as Hm.
  assert (same (s_core s) (s_core s') -> EvStartRet k id (inl w) ∈ rlog s) as Hk.
  { intros [H _]. assert (EvStartRet k id (inl w) ∈ keys (s_core s)) as Hx; [|by apply elem_of_list_filter in Hx as [_ Hx]].
    rewrite <- H. by apply elem_of_list_filter. }
  destruct l as [l| | | | | | | | | | | | | | | | | | | | |]; try (left; by apply Hk). destruct l; try (left; by apply Hk).
  - destruct r as [w'|e]; [|left; by apply Hk]. cbn [step own negb cstep] in Hs. repeat case_match; try done. simplify_eq.
    unfold rlog, emit in Hin. cbn in Hin. rewrite elem_of_cons in Hin. destruct Hin as [Hin|Hin]; [right; by simplify_eq|by left].
  - cbn [step own negb cstep] in Hs. left. repeat case_match; try done; simplify_eq;
    unfold rlog, emit in Hin; cbn in Hin; rewrite elem_of_cons in Hin; destruct Hin as [Hin|Hin]; done.
Qed.
Lemma end_step P s l s' k e : step P s l = Some s' -> c_ended (s_core s') !! k = Some e -> c_ended (s_core s) !! k = Some e \/ l = LCore (KEnd k e).
Proof.
  intros Hs Hin. pose proof (same_step P s l s' Hs) as Hm.
  assert (same (s_core s) (s_core s') -> c_ended (s_core s) !! k = Some e) as Hk by (by intros [_ <-]).
  destruct l as [l| | | | | | | | | | | | | | | | | | | | |]; try (left; by apply Hk). destruct l; try (left; by apply Hk).
  - destruct r as [w'|e']; [|left; by apply Hk]. cbn [step own negb cstep] in Hs. left. repeat case_match; try done. by simplify_eq.
  - cbn [step own negb cstep] in Hs. destruct (decide (g = k)) as [->|Hne].
    + right. repeat case_match; try done; simplify_eq; cbn in Hin; rewrite lookup_insert in Hin; by simplify_eq.
    + left. repeat case_match; try done; simplify_eq; cbn in Hin; by rewrite lookup_insert_ne in Hin.
Qed.

(** ** Killed workers *)
Lemma kill_ret P s g id w : reachable P s -> EvKill g id w ∈ rlog s -> EvStartRet g id (inl w) ∈ rlog s.
Proof.
  intros Hr (pre & post & Heq)%elem_of_list_split. pose proof (a_gor P _ (reach_all P s Hr)) as G. unfold rlog in *. apply (gl_setret _ G).
  assert (EvSet g id w ∈ post) as Hx; [|rewrite Heq; apply elem_of_app; right; by right].
  refine (creach_past P (fun ev post => match ev with EvKill g id w => EvSet g id w ∈ post | _ => True end) _ _ (reach_core P s Hr) _ _ _ Heq).
  intros c a ev b A _ He. destruct ev; try done. cbn in He. destruct He as (i & Hi & [(Hw & _)|(-> & _ & Hl & _)]).
  - apply elem_of_app. right. by eapply (gl_reg _ (a_gor P _ A)).
  - by left.
Qed.
Lemma ckill_ret P s i g w : reachable P s -> EvClient (CvKill i g w) ∈ rlog s -> exists id, EvStartRet g id (inl w) ∈ rlog s.
Proof.
  intros Hr (pre & post & Heq)%elem_of_list_split. destruct (client_read P s Hr _ _ _ Heq) as (s0 & Hr0 & _ & -> & id & d & Hc).
  pose proof (li_pc _ (reach_linv P s0 Hr0) _ _ Hc) as [_ Hl]. exists id.
  assert (EvStartRet g id (inl w) ∈ rlog s0) as Hx. { apply (gl_setret _ (a_gor P _ (reach_all P s0 Hr0))). by eapply lookup_set. }
  rewrite Heq. apply elem_of_app. right. by right.
Qed.
Lemma rlog_step P s l s' : step P s l = Some s' -> exists new, rlog s' = new ++ rlog s.
Proof.
  intros Hs. destruct (step_crun P s l s' Hs) as [ls H]. unfold rlog. revert H. generalize (s_core s). intros c. revert c. induction ls as [|x ls IH]; intros c; cbn.
  - intros [= <-]. by exists [].
  - destruct (cstep P c x) as [c1|] eqn:Hc; [|intros H; exfalso; clear -H; induction ls; cbn in H; [done|auto]].
    intros H. destruct (IH _ H) as [n1 ->]. destruct (cstep_log P c x c1 Hc) as [n2 ->]. exists (n1 ++ n2). by rewrite app_assoc.
Qed.
Lemma is_dead P s : reachable P s -> t_dead (c_tomb (s_core s)) = true <-> EvDead ∈ rlog s.
Proof. intros Hr. by destruct (a_tomb P _ (reach_all P s Hr)) as (_ & _ & T & _). Qed.
Lemma dying_why P c : creach P c -> t_dying (c_tomb c) = true -> EvKilled ∈ c_log c \/ EvDead ∈ c_log c.
Proof.
  intros Hr. apply (creach_ind P (fun c => t_dying (c_tomb c) = true -> EvKilled ∈ c_log c \/ EvDead ∈ c_log c)); [done| |done].
  clear c Hr. intros c c' V IH _ HT. destruct (trans_log P c c' HT) as [new Hnew].
  assert (t_dying (c_tomb c) = true -> EvKilled ∈ c_log c' \/ EvDead ∈ c_log c') as Hold.
  { rewrite Hnew. intros H. destruct (IH H); [left|right]; apply elem_of_app; by right. }
  destruct HT; try exact Hold.
  - intros _. left. by left.
  - destruct (ci_tomb c V) as (Hre & Ha & Hd & Hp); [congruence|]. cbn -[elem_of app tomb_done] in *. destruct (t_dead t) eqn:Ht; [intros _; right; by left|].
    intros Hy. apply Hold. revert Hy Ht. subst t. destruct (c_tomb c) as [rs al dd pn]. cbn in *. subst. unfold tomb_done, tomb_kill, t_dying. cbn.
    destruct (c_final c) as [[]|], Hre as [-> | ->]; cbn; try done.
Qed.
Lemma tell_dying P s s' : reachable P s -> step P s (LCore KKill) = Some s' -> EvKilled ∈ rlog s' \/ EvDead ∈ rlog s'.
Proof.
  intros Hr Hs. assert (reachable P s') as Hr' by (by eapply reach_step).
  apply (dying_why P _ (reach_core P s' Hr')). assert (s' = s <| s_core := kill_tomb (s_core s) |>) as -> by (cbn in Hs; by injection Hs).
  cbn. unfold kill_tomb, t_dying. destruct (t_dying (c_tomb (s_core s))); cbn; unfold tomb_kill; destruct (t_reason (c_tomb (s_core s))) as [|[?|]] eqn:Hre; cbn; rewrite ?Hre; done.
Qed.

(** ** Nothing left to do *)
Lemma all_done P s ls : run P init ls = Some s -> (forall g, LCore (KLost g) ∉ ls) ->
  EvKilled ∈ rlog s \/ (stopping_all (rlog s) /\ ~ waits_for_clock s) -> t_panic (c_tomb (s_core s)) = false ->
  (forall l, owed (rlog s) l -> match l with LCore (KStartRet _ (inl _)) | LCore (KEnd _ _) => True | _ => step P s l = None end) ->
  (forall g id w e, EvKill g id w ∈ rlog s -> step P s (LCore (KEnd g e)) = None) -> EvDead ∈ rlog s.
Proof.
  intros Hrun Hn Hd Hp Ho Hx. assert (reachable P s) as Hr by (by exists ls).
  assert (forall l, owed (rlog s) l -> step P s l = None) as Hno.
  { intros l Hl. pose proof (Ho l Hl) as Hl'. destruct l as [l| | | | | | | | | | | | | | | | | | | | |]; try done. destruct l; try done.
    - destruct r as [w|e]; [|done]. assert (step P s (LCore (KStartRet g (inr ETombDying))) = None) as H by (by apply (Ho (LCore (KStartRet g (inr ETombDying))))).
      cbn [step own negb cstep] in *. by repeat case_match.
    - destruct Hl as (_ & id & w & Hk). by eapply Hx. }
  assert (stopping_all (rlog s)) as Hst.
  { destruct Hd as [Hk|[? _]]; [|done]. destruct (stop_dec (rlog s)) as [|Hns]; [done|]. exfalso.
    destruct (c_loop (s_core s)) eqn:Hl.
    - destruct (killed_enabled P s Hr Hk Hns) as (s' & H & _); [by left|]. by rewrite Hno in H.
    - destruct (busy_enabled P s Hr) as [[s' H]|(i & [[s' H]|[s' H]])]; [intros [?|?]; congruence|..]; rewrite Hno in H; done.
    - pose proof (ci_loop _ (a_inv P _ (reach_all P s Hr))) as Hlo. by rewrite Hl in Hlo.
    - destruct (killed_enabled P s Hr Hk Hns) as (s' & H & _); [by right|]. by rewrite Hno in H. }
  destruct (settled P s ls Hrun Hn Hst Hno) as [H|[(Hl & _)|(Hw & Hk)]]; [done| |].
  - destruct (a_tomb P _ (reach_all P s Hr)) as (_ & _ & T3 & T4). destruct (T4 Hl) as [(H1 & _)|[(H1 & _)|(_ & H1 & _)]]; [by apply T3|by apply T3|congruence].
  - destruct Hd as [?|[_ ?]]; done.
Qed.
