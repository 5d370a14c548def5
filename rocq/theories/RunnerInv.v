(** The core of the runner as a transition relation with explicit states, and its invariants. *)
From stdpp Require Import gmap strings list.
From Coq Require Import ZArith.
From RecordUpdate Require Import RecordSet.
From Verif Require Import Err Tomb Runner RunnerSpec.
Import RecordSetNotations.

Definition stop_info (i : winfo) : winfo := i <| i_worker := None |> <| i_start := None |> <| i_stopping := true |>.
Definition kill_events (id : string) (i : winfo) : list event :=
  match i_worker i with Some (g, w) => [EvKill g id w] | None => [] end.
Fixpoint kill_all_events (m : gmap string winfo) (l : list string) : list event :=
  match l with
  | [] => []
  | id :: l => (match m !! id with Some i => kill_events id i | None => [] end) ++ kill_all_events m l
  end.

Lemma alter_insert' {A} (f : A -> A) (m : gmap nat A) g r : m !! g = Some r -> alter f g m = <[g := f r]> m.
Proof.
  intros H. apply map_eq. intros j. destruct (decide (g = j)) as [<-|Hne].
  - by rewrite lookup_alter, lookup_insert, H.
  - by rewrite lookup_alter_ne, lookup_insert_ne.
Qed.

Lemma kill_worker_some id c i : c_workers c !! id = Some i ->
  kill_worker id c = c <| c_workers ::= <[id := stop_info i]> |> <| c_log ::= app (kill_events id i) |>.
Proof. intros H. unfold kill_worker, kill_events. rewrite H. destruct i as [[[g w]|] ? ? ? ? ?], c; reflexivity. Qed.
Lemma kill_worker_none id c : c_workers c !! id = None -> kill_worker id c = c.
Proof. intros H. unfold kill_worker. by rewrite H. Qed.

Lemma kill_list_spec c l : NoDup l ->
  let m' := map_imap (fun id i => Some (if bool_decide (id ∈ l) then stop_info i else i)) (c_workers c) in
  foldr kill_worker c l = c <| c_workers := m' |> <| c_log ::= app (kill_all_events (c_workers c) l) |>.
Proof.
  induction l as [|id l IH]; intros Hnd; cbn [foldr kill_all_events].
  - cbv zeta. assert (map_imap (fun id i => Some (if bool_decide (id ∈ []) then stop_info i else i)) (c_workers c) = c_workers c) as Hm.
    { apply map_eq. intros j. rewrite map_lookup_imap. by destruct (c_workers c !! j). }
    rewrite Hm. by destruct c.
  - apply NoDup_cons in Hnd as [Hni Hnd]. specialize (IH Hnd). cbv zeta in *. rewrite IH.
    assert (forall i, c_workers c !! id = Some i -> map_imap (fun id i => Some (if bool_decide (id ∈ l) then stop_info i else i)) (c_workers c) !! id = Some i) as H1.
    { intros i Hi. rewrite map_lookup_imap, Hi. simpl. by rewrite bool_decide_eq_false_2. }
    destruct (c_workers c !! id) as [i|] eqn:Hi.
    + erewrite kill_worker_some; [|apply H1; reflexivity].
      assert (<[id:=stop_info i]> (map_imap (fun id i => Some (if bool_decide (id ∈ l) then stop_info i else i)) (c_workers c))
        = map_imap (fun id0 i => Some (if bool_decide (id0 ∈ id :: l) then stop_info i else i)) (c_workers c)) as Hm.
      { apply map_eq. intros j. rewrite map_lookup_imap. destruct (decide (id = j)) as [<-|Hne].
        - rewrite lookup_insert, Hi. simpl. rewrite bool_decide_eq_true_2; [done|by left].
        - rewrite lookup_insert_ne, map_lookup_imap by done. destruct (c_workers c !! j); simpl; [|done]. f_equal.
          apply not_eq_sym in Hne. destruct (decide (j ∈ l)).
          + rewrite !bool_decide_eq_true_2; [done|by right|done].
          + rewrite !bool_decide_eq_false_2; [done|rewrite elem_of_cons; tauto|done]. }
      destruct c; cbn in *. unfold set; cbn. rewrite Hm. by rewrite app_assoc.
    + rewrite kill_worker_none.
      * assert (map_imap (fun id i => Some (if bool_decide (id ∈ l) then stop_info i else i)) (c_workers c)
          = map_imap (fun id0 i => Some (if bool_decide (id0 ∈ id :: l) then stop_info i else i)) (c_workers c)) as Hm.
        { apply map_eq. intros j. rewrite !map_lookup_imap. destruct (c_workers c !! j) eqn:Hj; simpl; [|done]. f_equal.
          assert (j <> id) by congruence. destruct (decide (j ∈ l)).
          + rewrite !bool_decide_eq_true_2; [done|by right|done].
          + rewrite !bool_decide_eq_false_2; [done|rewrite elem_of_cons; tauto|done]. }
        destruct c; cbn in *. unfold set; cbn. by rewrite Hm.
      * cbn. rewrite map_lookup_imap, Hi. done.
Qed.

Lemma kill_all_spec c : kill_all c =
  c <| c_workers := stop_info <$> c_workers c |> <| c_log ::= app (kill_all_events (c_workers c) (elements (dom (c_workers c)))) |>.
Proof.
  unfold kill_all. rewrite kill_list_spec by apply NoDup_elements. cbv zeta.
  assert (map_imap (fun id i => Some (if bool_decide (id ∈ elements (dom (c_workers c))) then stop_info i else i)) (c_workers c)
    = stop_info <$> c_workers c) as ->; [|done].
  apply map_eq. intros j. rewrite map_lookup_imap, lookup_fmap. destruct (c_workers c !! j) eqn:Hj; simpl; [|done].
  rewrite bool_decide_eq_true_2; [done|]. apply elem_of_elements, elem_of_dom. by exists w.
Qed.

Lemma kill_all_events_in m l ev : ev ∈ kill_all_events m l <-> exists id i g w, id ∈ l /\ m !! id = Some i /\ i_worker i = Some (g, w) /\ ev = EvKill g id w.
Proof.
  induction l as [|id l IH]; cbn [kill_all_events].
  - split; [intros H; by apply elem_of_nil in H|]. intros (? & ? & ? & ? & H & _). by apply elem_of_nil in H.
  - rewrite elem_of_app, IH. split.
    + intros [H|(id' & i & g & w & H & H')].
      * destruct (m !! id) as [i|] eqn:Hi; [|by apply elem_of_nil in H]. unfold kill_events in H.
        destruct (i_worker i) as [[g w]|] eqn:Hw; [|by apply elem_of_nil in H]. apply elem_of_list_singleton in H as ->.
        exists id, i, g, w. split; [by left|done].
      * exists id', i, g, w. split; [by right|done].
    + intros (id' & i & g & w & [->|H]%elem_of_cons & Hi & Hw & ->).
      * left. rewrite Hi. unfold kill_events. rewrite Hw. by left.
      * right. exists id', i, g, w. done.
Qed.

(** ** Invariants *)
Record cinv (c : core) : Prop := {
  ci_act : forall id, is_Some (c_workers c !! id) <-> exists g r, c_gors c !! g = Some r /\ w_id r = id /\ w_pc r <> WGone;
  ci_uniq : forall g g' r r', c_gors c !! g = Some r -> c_gors c !! g' = Some r' -> w_id r = w_id r' ->
    w_pc r <> WGone -> w_pc r' <> WGone -> g = g';
  ci_fresh : forall g r, c_gors c !! g = Some r -> g < c_next c;
  ci_take : forall g r e, c_gors c !! g = Some r -> w_pc r = WTaken e -> c_loop c = LDo (ADone g);
  ci_loop : match c_loop c with
    | LDo (ADone g) => exists r e, c_gors c !! g = Some r /\ w_pc r = WTaken e
    | LDo (ASet g w) => exists r, c_gors c !! g = Some r /\ (w_pc r = WWait w \/ w_pc r = WLost \/ exists e, w_pc r = WSendDone e)
    | LDo AKillAll => c_dying c = true
    | LBlocked => False
    | LEnded => c_dying c = true /\ c_workers c = ∅
    | _ => True end;
  ci_done : forall id i, c_workers c !! id = Some i -> i_done i < c_inst c /\ i_done i ∉ c_signals c;
  ci_doneu : forall id id' i i', c_workers c !! id = Some i -> c_workers c !! id' = Some i' -> i_done i = i_done i' -> id = id';
  ci_sig : forall d, d ∈ c_signals c -> d < c_inst c;
  ci_stop : forall id i, c_workers c !! id = Some i -> (i_stopping i = true <-> i_start i = None) /\ (i_stopping i = true -> i_worker i = None);
  ci_dying : c_dying c = true -> c_loop c = LDo AKillAll \/ forall id i, c_workers c !! id = Some i -> i_stopping i = true;
  ci_crash : c_crash c = false;
  ci_tomb : c_loop c <> LEnded -> (t_reason (c_tomb c) = StillAlive \/ t_reason (c_tomb c) = Reason None) /\
    t_alive (c_tomb c) = 1 /\ t_dead (c_tomb c) = false /\ t_panic (c_tomb c) = false;
  ci_dead : t_dead (c_tomb c) = true -> c_loop c = LEnded /\ t_dying (c_tomb c) = true;
  ci_watch : c_watch c = false -> c_dying c = true /\ t_dying (c_tomb c) = true
}.

(** The steps of the core that do not crash, with explicit states. *)
Definition put (g : nat) (r : wgor) (c : core) : core := c <| c_gors ::= <[g := r]> |>.
Inductive ctrans (P : rcfg) (c : core) : core -> Prop :=
  | T_kill_again : t_dying (c_tomb c) = true -> ctrans P c c
  | T_kill : t_dying (c_tomb c) = false ->
      ctrans P c (emit EvKilled (c <| c_tomb := c_tomb c <| t_reason := Reason None |> |>))
  | T_tick d : (0 <= d)%Z -> ctrans P c (c <| c_now := (d + c_now c)%Z |>)
  | T_ctx i : ctrans P c (emit (EvCtx i) (c <| c_ctx := {[i]} ∪ c_ctx c |>))
  | T_take d : d ∈ c_signals c -> ctrans P c (c <| c_signals := c_signals c ∖ {[d]} |>)
  | T_emit ce : ctrans P c (emit (EvClient ce) c)
  | T_dying : c_loop c = LTop -> finished c = false -> c_watch c = true -> t_dying (c_tomb c) = true ->
      ctrans P c (emit EvStopAll (set_loop (LDo AKillAll) (c <| c_dying := true |> <| c_watch := false |>)))
  | T_recvstart i id f : c_loop c = LTop -> finished c = false -> ctrans P c (set_loop (LDo (AStart i id f)) c)
  | T_recvstop i id : c_loop c = LTop -> finished c = false ->
      ctrans P c (emit (EvStopReq i id) (set_loop (LDo (AKill id)) c))
  | T_recvstarted g id f x w : c_loop c = LTop -> finished c = false -> c_gors c !! g = Some (mkWGor id f x (WSendStarted w)) ->
      ctrans P c (set_loop (LDo (ASet g w)) (put g (mkWGor id f x (WWait w)) c))
  | T_recvdone g id f x e : c_loop c = LTop -> finished c = false -> c_gors c !! g = Some (mkWGor id f x (WSendDone e)) ->
      ctrans P c (set_loop (LDo (ADone g)) (put g (mkWGor id f x (WTaken e)) c))
  | T_killall : c_loop c = LDo AKillAll ->
      ctrans P c (set_loop (LDo ABcast) (c <| c_workers := stop_info <$> c_workers c |>
        <| c_log := kill_all_events (c_workers c) (elements (dom (c_workers c))) ++ c_log c |>))
  | T_start_dying i id f : c_loop c = LDo (AStart i id f) -> c_dying c = true ->
      ctrans P c (set_loop (LDo (AReply i None)) (emit (EvAnswer i id f None) c))
  | T_start_known i id f n : c_loop c = LDo (AStart i id f) -> c_dying c = false -> c_workers c !! id = Some n ->
      let r := Some (ETyped TAlreadyExists (MsgText id)) in
      ctrans P c (set_loop (LDo (AReply i r)) (emit (EvAnswer i id f r) c))
  | T_start_new i id f : c_loop c = LDo (AStart i id f) -> c_dying c = false -> c_workers c !! id = None ->
      ctrans P c (set_loop (LDo (AReply i None)) (c
        <| c_workers := <[id := mkWInfo None (Some f) (r_delay P) false (c_inst c) (c_now c)]> (c_workers c) |>
        <| c_inst := S (c_inst c) |> <| c_gors := <[c_next c := mkWGor id f (Some i) (WBegin 0)]> (c_gors c) |>
        <| c_next := S (c_next c) |>
        <| c_log := EvSpawn (c_next c) id f 0 (c_now c) :: EvKnown id f (c_inst c) :: EvAnswer i id f None :: c_log c |>))
  | T_reply i r : c_loop c = LDo (AReply i r) -> ctrans P c (set_loop (LDo ABcast) c)
  | T_stop_unknown id : c_loop c = LDo (AKill id) -> c_workers c !! id = None -> ctrans P c (set_loop (LDo ABcast) c)
  | T_stop_known id i : c_loop c = LDo (AKill id) -> c_workers c !! id = Some i ->
      ctrans P c (set_loop (LDo ABcast) (c <| c_workers := <[id := stop_info i]> (c_workers c) |> <| c_log := kill_events id i ++ c_log c |>))
  | T_set_live g id f x p w i : c_loop c = LDo (ASet g w) -> c_gors c !! g = Some (mkWGor id f x p) -> c_workers c !! id = Some i ->
      c_dying c = false -> i_stopping i = false ->
      ctrans P c (set_loop (LDo ABcast) (c <| c_workers := <[id := i <| i_worker := Some (g, w) |>]> (c_workers c) |> <| c_log := EvSet g id w :: c_log c |>))
  | T_set_kill g id f x p w i : c_loop c = LDo (ASet g w) -> c_gors c !! g = Some (mkWGor id f x p) -> c_workers c !! id = Some i ->
      c_dying c = true \/ i_stopping i = true ->
      ctrans P c (set_loop (LDo ABcast) (c <| c_workers := <[id := stop_info i]> (c_workers c) |> <| c_log := EvKill g id w :: EvSet g id w :: c_log c |>))
  | T_done_remove g id f x e i : c_loop c = LDo (ADone g) -> c_gors c !! g = Some (mkWGor id f x (WTaken e)) -> c_workers c !! id = Some i ->
      match e with Some y => r_isFatal P y = false | None => True end -> removes P i e = true ->
      ctrans P c (set_loop (LDo ABcast) (put g (mkWGor id f x WGone) c <| c_workers := delete id (c_workers c) |>
        <| c_signals := {[i_done i]} ∪ c_signals c |> <| c_log := EvRemoved id (i_done i) :: EvDone g id e (c_now c) :: c_log c |>))
  | T_done_fatal g id f x y i : c_loop c = LDo (ADone g) -> c_gors c !! g = Some (mkWGor id f x (WTaken (Some y))) -> c_workers c !! id = Some i ->
      r_isFatal P y = true ->
      ctrans P c (set_loop (LDo (if c_dying c then ABcast else AKillAll)) (put g (mkWGor id f x WGone) c <| c_workers := delete id (c_workers c) |>
        <| c_signals := {[i_done i]} ∪ c_signals c |> <| c_dying := true |>
        <| c_final := (match c_final c with None => Some y | Some z => if r_more P y z then Some y else Some z end) |>
        <| c_log := (if c_dying c then [] else [EvStopAll]) ++ EvRemoved id (i_done i) :: EvDone g id (Some y) (c_now c) :: c_log c |>))
  | T_done_restart g id f x e i f' : c_loop c = LDo (ADone g) -> c_gors c !! g = Some (mkWGor id f x (WTaken e)) -> c_workers c !! id = Some i ->
      removes P i e = false -> i_start i = Some f' ->
      ctrans P c (set_loop (LDo ABcast) (put (c_next c) (mkWGor id f' None (WBegin (i_delay i))) (put g (mkWGor id f x WGone) c)
        <| c_workers := <[id := i <| i_delay := r_delay P |>]> (c_workers c) |> <| c_next := S (c_next c) |>
        <| c_log := EvSpawn (c_next c) id f' (i_delay i) (c_now c) :: EvDone g id e (c_now c) :: c_log c |>))
  | T_bcast : c_loop c = LDo ABcast -> ctrans P c (set_loop LTop c)
  | T_return : c_loop c = LTop -> finished c = true -> let t := tomb_done (c_tomb c) (c_final c) in
      ctrans P c (set_loop LEnded (c <| c_tomb := t |> <| c_log := (if t_dead t then [EvDead] else []) ++ c_log c |>))
  | T_begin_timer g id f x d : c_gors c !! g = Some (mkWGor id f x (WBegin d)) -> (0 < d)%Z ->
      ctrans P c (put g (mkWGor id f x (WTimer (c_now c + d))) c)
  | T_begin g id f x d : c_gors c !! g = Some (mkWGor id f x (WBegin d)) -> (d <= 0)%Z ->
      ctrans P c (emit (EvStartCall g id f (c_now c)) (put g (mkWGor id f x WStart) c))
  | T_fire g id f x d : c_gors c !! g = Some (mkWGor id f x (WTimer d)) -> (d <= c_now c)%Z ->
      ctrans P c (emit (EvStartCall g id f (c_now c)) (put g (mkWGor id f x WStart) c))
  | T_abort g id f x d : c_gors c !! g = Some (mkWGor id f x (WTimer d)) -> t_dying (c_tomb c) = true ->
      ctrans P c (put g (mkWGor id f x (WSendDone None)) c)
  | T_startret g id f x r : c_gors c !! g = Some (mkWGor id f x WStart) ->
      ctrans P c (emit (EvStartRet g id r) (put g (mkWGor id f x (match r with inl w => WSendStarted w | inr e => WSendDone (Some e) end)) c))
  | T_end g id f x p e : c_gors c !! g = Some (mkWGor id f x p) -> (exists w, p = WSendStarted w \/ p = WWait w) -> c_ended c !! g = None ->
      ctrans P c (emit (EvEnd g id e) (c <| c_ended := <[g := e]> (c_ended c) |>))
  | T_exit g id f x w e : c_gors c !! g = Some (mkWGor id f x (WWait w)) -> c_ended c !! g = Some e ->
      ctrans P c (put g (mkWGor id f x (WSendDone e)) c)
  | T_lost g id f x w : c_gors c !! g = Some (mkWGor id f x (WWait w)) ->
      ctrans P c (put g (mkWGor id f x WLost) c).

Lemma select_inv c : at_select c = true -> c_loop c = LTop /\ finished c = false.
Proof. unfold at_select. destruct (c_loop c); try done. rewrite negb_true_iff. done. Qed.
Lemma set_pc_put g id f x p p' c : c_gors c !! g = Some (mkWGor id f x p) -> set_pc g p' c = put g (mkWGor id f x p') c.
Proof. intros H. unfold set_pc, put. destruct c; cbn in *. unfold set; cbn. rewrite (alter_insert' _ _ _ _ H). reflexivity. Qed.

Lemma cstep_trans P c l c' : cinv c -> cstep P c l = Some c' -> ctrans P c c'.
Proof.
  intros V Hs. destruct l; cbn [cstep] in Hs.
  - (* kill *) injection Hs as <-. unfold kill_tomb. destruct (t_dying (c_tomb c)) eqn:Hd.
    + assert (tomb_kill (c_tomb c) None = c_tomb c) as Hk.
      { destruct (c_tomb c) as [[|[]] ? ? ?]; done. }
      assert (c <| c_tomb ::= (fun t => tomb_kill t None) |> = c) as -> by (transitivity (c <| c_tomb := tomb_kill (c_tomb c) None |>); [done|]; rewrite Hk; by destruct c).
      by apply T_kill_again.
    + pose proof (T_kill P c Hd) as HT. destruct c as [[rs ? ? ?]]; cbn in Hd. destruct rs; [exact HT|]. discriminate Hd.
  - case_match; [|done]. injection Hs as <-. apply Z.leb_le in H. by apply T_tick.
  - injection Hs as <-. apply T_ctx.
  - case_bool_decide; [|done]. injection Hs as <-. by apply T_take.
  - injection Hs as <-. apply T_emit.
  - destruct (at_select c) eqn:Ha, (c_watch c) eqn:Hw, (t_dying (c_tomb c)) eqn:Hd; try done. injection Hs as <-.
    apply select_inv in Ha as []. by apply T_dying.
  - destruct (at_select c) eqn:Ha; [|done]. injection Hs as <-. apply select_inv in Ha as []. by apply T_recvstart.
  - destruct (at_select c) eqn:Ha; [|done]. injection Hs as <-. apply select_inv in Ha as []. by apply T_recvstop.
  - destruct (c_gors c !! g) as [[id f x []]|] eqn:Hg; try done.
    destruct (at_select c) eqn:Ha; [|done]. injection Hs as <-. apply select_inv in Ha as []. erewrite set_pc_put by done. by eapply T_recvstarted.
  - destruct (c_gors c !! g) as [[id f x []]|] eqn:Hg; try done.
    destruct (at_select c) eqn:Ha; [|done]. injection Hs as <-. apply select_inv in Ha as []. erewrite set_pc_put by done. by eapply T_recvdone.
  - (* act *) destruct (c_loop c) as [|[ |i id f|i r|id|g w|g| ]| |] eqn:Hl; try done.
    + injection Hs as <-. rewrite kill_all_spec. by apply T_killall.
    + injection Hs as <-. unfold start_worker. destruct (c_dying c) eqn:Hd; [by apply T_start_dying|].
      destruct (c_workers c !! id) as [n|] eqn:Hn; [by eapply T_start_known|]. by eapply T_start_new.
    + injection Hs as <-. by eapply T_reply.
    + injection Hs as <-. destruct (c_workers c !! id) as [n|] eqn:Hn.
      * erewrite kill_worker_some by done. exact (T_stop_known P c id n Hl Hn).
      * rewrite kill_worker_none by done. exact (T_stop_unknown P c id Hl Hn).
    + destruct (c_gors c !! g) as [[id f x p]|] eqn:Hg; [|done]. injection Hs as <-. cbn [w_id].
      pose proof (ci_loop c V) as Hlo. rewrite Hl in Hlo. destruct Hlo as (r & Hg' & Hp). rewrite Hg in Hg'. injection Hg' as <-. cbn in Hp.
      destruct (proj2 (ci_act c V id)) as [i Hi]. { exists g, (mkWGor id f x p). split_and!; [done|done|]. cbn. naive_solver. }
      unfold set_worker. rewrite Hi. destruct (c_dying c || i_stopping i) eqn:Hk.
      * erewrite kill_worker_some by (cbn; apply lookup_insert).
        apply orb_true_iff in Hk. pose proof (T_set_kill P c g id f x p w i Hl Hg Hi Hk) as HT.
        assert (<[id:=stop_info (i <| i_worker := Some (g, w) |>)]> (<[id:=i <| i_worker := Some (g, w) |>]> (c_workers c)) = <[id := stop_info i]> (c_workers c)) as Hm.
        { rewrite insert_insert. reflexivity. }
        destruct c; cbn in *. unfold set in *; cbn in *. rewrite Hm. exact HT.
      * apply orb_false_iff in Hk as []. exact (T_set_live P c g id f x p w i Hl Hg Hi ltac:(done) ltac:(done)).
    + destruct (c_gors c !! g) as [[id f x []]|] eqn:Hg; try done. injection Hs as <-. unfold worker_done.
      destruct (proj2 (ci_act c V id)) as [i Hi]. { exists g, (mkWGor id f x (WTaken e)). done. }
      destruct (ci_done c V id i Hi) as [_ Hsig].
      assert (c_workers (emit (EvDone g id e (c_now c)) (set_pc g WGone c)) = c_workers c) as -> by done. rewrite Hi.
      erewrite set_pc_put by done.
      assert (forall nx c1, c_signals c1 = c_signals c -> remove_worker id (i_done i) nx c1 =
        set_loop (LDo nx) (emit (EvRemoved id (i_done i)) (c1 <| c_workers ::= delete id |>) <| c_signals ::= union {[i_done i]} |>)) as Hrm.
      { intros nx c1 Hc1. unfold remove_worker. rewrite Hc1. by rewrite bool_decide_eq_false_2. }
      pose proof (T_done_remove P c g id f x e i Hl Hg Hi) as HTr. unfold removes in HTr.
      pose proof (T_done_fatal P c g id f x) as HTf.
      pose proof (fun f' => T_done_restart P c g id f x e i f' Hl Hg Hi) as HTs. unfold removes in HTs.
      destruct e as [y|].
      * destruct (r_isFatal P y) eqn:Hf.
        -- specialize (HTf y i Hl Hg Hi Hf). cbv zeta. match goal with |- context [if c_dying ?z then _ else _] => change (c_dying z) with (c_dying c) end.
           destruct (c_dying c) eqn:Hd; rewrite Hrm by done.
           ++ destruct c; cbn in *; subst. exact HTf.
           ++ destruct c; cbn in *; subst. exact HTf.
        -- destruct (r_shouldRestart P y) eqn:Hr; cbn [negb orb].
           ++ destruct (i_start i) as [f'|] eqn:Hst.
              ** apply (HTs f'); [|done]. cbn. by case_bool_decide.
              ** rewrite Hrm by done. by apply HTr.
           ++ rewrite Hrm by done. by apply HTr.
      * destruct (i_stopping i) eqn:Hst; cbn [negb].
        -- destruct (i_start i) as [f'|] eqn:Hs'.
           ++ apply (HTs f'); [|done]. cbn. by case_bool_decide.
           ++ rewrite Hrm by done. by apply HTr.
        -- rewrite Hrm by done. by apply HTr.
    + injection Hs as <-. by apply T_bcast.
  - destruct (c_loop c) eqn:Hl; try done. destruct (finished c) eqn:Hf; [|done]. injection Hs as <-.
    pose proof (T_return P c Hl Hf) as HT. cbv zeta in HT.
    replace (c_tomb (set_loop LEnded (c <| c_tomb ::= (fun t => tomb_done t (c_final c)) |>))) with (tomb_done (c_tomb c) (c_final c)) by done.
    destruct (t_dead _); destruct c; exact HT.
  - destruct (c_gors c !! g) as [[id f x []]|] eqn:Hg; try done. destruct (0 <? d)%Z eqn:Hd; injection Hs as <-; erewrite set_pc_put by done.
    + eapply T_begin_timer; [done|lia].
    + eapply T_begin; [done|lia].
  - destruct (c_gors c !! g) as [[id f x []]|] eqn:Hg; try done. destruct (_ <=? _)%Z eqn:Hd; [|done]. injection Hs as <-; erewrite set_pc_put by done.
    eapply T_fire; [done|lia].
  - destruct (c_gors c !! g) as [[id f x []]|] eqn:Hg; try done. destruct (t_dying _) eqn:Hd; [|done]. injection Hs as <-; erewrite set_pc_put by done.
    by eapply T_abort.
  - destruct (c_gors c !! g) as [[id f x []]|] eqn:Hg; try done. injection Hs as <-; erewrite set_pc_put by done. by eapply T_startret.
  - destruct (c_gors c !! g) as [[id f x []]|] eqn:Hg; try done. injection Hs as <-; erewrite set_pc_put by done. by eapply (T_startret P c g id f x (inr _)).
  - destruct (c_gors c !! g) as [[id f x []]|] eqn:Hg; try done; (destruct (c_ended c !! g) eqn:He; [done|]; injection Hs as <-; eapply T_end; eauto).
  - destruct (c_gors c !! g) as [[id f x []]|] eqn:Hg; try done. destruct (c_ended c !! g) eqn:He; [|done]. injection Hs as <-; erewrite set_pc_put by done.
    by eapply T_exit.
  - destruct (c_gors c !! g) as [[id f x []]|] eqn:Hg; try done. injection Hs as <-; erewrite set_pc_put by done. by eapply T_lost.
Qed.

(** ** Preservation *)
Definition act (m : gmap nat wgor) (id : string) : Prop := exists g r, m !! g = Some r /\ w_id r = id /\ w_pc r <> WGone.
Definition uniq (m : gmap nat wgor) : Prop := forall g g' r r', m !! g = Some r -> m !! g' = Some r' -> w_id r = w_id r' ->
    w_pc r <> WGone -> w_pc r' <> WGone -> g = g'.

Lemma act_same m g id f x p p' id' : m !! g = Some (mkWGor id f x p) -> p <> WGone -> p' <> WGone ->
  act (<[g := mkWGor id f x p']> m) id' <-> act m id'.
Proof.
  intros Hg Hp Hp'. split; intros (h & r & Hh & Hi & Hr).
  - destruct (decide (g = h)) as [<-|Hne]; [rewrite lookup_insert in Hh; injection Hh as <-; cbn in *; by exists g, (mkWGor id f x p)|].
    rewrite lookup_insert_ne in Hh by done. by exists h, r.
  - destruct (decide (g = h)) as [<-|Hne].
    + rewrite Hg in Hh. injection Hh as <-. exists g, (mkWGor id f x p'). rewrite lookup_insert. done.
    + exists h, r. by rewrite lookup_insert_ne.
Qed.
Lemma uniq_same m g id f x p p' : m !! g = Some (mkWGor id f x p) -> p <> WGone -> uniq m -> uniq (<[g := mkWGor id f x p']> m).
Proof.
  intros Hg Hp Hu h h' r r' Hh Hh' Hi Hr Hr'.
  apply lookup_insert_Some in Hh as [[<- <-]|[Hne Hh]]; apply lookup_insert_Some in Hh' as [[<- <-]|[Hne' Hh']]; cbn in *.
  - done.
  - by apply (Hu g h' (mkWGor id f x p) r').
  - by apply (Hu h g r (mkWGor id f x p)).
  - by apply (Hu h h' r r').
Qed.
Lemma act_gone m g id f x p id' : m !! g = Some (mkWGor id f x p) -> p <> WGone -> uniq m ->
  act (<[g := mkWGor id f x WGone]> m) id' <-> act m id' /\ id' <> id.
Proof.
  intros Hg Hp Hu. split.
  - intros (h & r & Hh & Hi & Hr). destruct (decide (g = h)) as [<-|Hne]; [rewrite lookup_insert in Hh; injection Hh as <-; by cbn in *|].
    rewrite lookup_insert_ne in Hh by done. split; [by exists h, r|]. intros ->. apply Hne. by apply (Hu g h (mkWGor id f x p) r).
  - intros [(h & r & Hh & Hi & Hr) Hne]. exists h, r. rewrite lookup_insert_ne; [done|]. intros ->. rewrite Hg in Hh. injection Hh as <-. by cbn in Hi.
Qed.
Lemma uniq_gone m g id f x : uniq m -> uniq (<[g := mkWGor id f x WGone]> m).
Proof.
  intros Hu h h' r r' Hh Hh' Hi Hr Hr'.
  apply lookup_insert_Some in Hh as [[<- <-]|[Hne Hh]]; apply lookup_insert_Some in Hh' as [[<- <-]|[Hne' Hh']]; cbn in *; try done.
  by apply (Hu h h' r r').
Qed.
Lemma act_new m g id f x p id' : m !! g = None -> p <> WGone ->
  act (<[g := mkWGor id f x p]> m) id' <-> act m id' \/ id' = id.
Proof.
  intros Hg Hp. split.
  - intros (h & r & Hh & Hi & Hr). destruct (decide (g = h)) as [<-|Hne]; [rewrite lookup_insert in Hh; injection Hh as <-; cbn in *; by right|].
    rewrite lookup_insert_ne in Hh by done. left. by exists h, r.
  - intros [(h & r & Hh & Hi & Hr)| ->].
    + exists h, r. rewrite lookup_insert_ne; [done|congruence].
    + exists g, (mkWGor id f x p). by rewrite lookup_insert.
Qed.
Lemma uniq_new m g id f x p : m !! g = None -> ~ act m id -> uniq m -> uniq (<[g := mkWGor id f x p]> m).
Proof.
  intros Hg Ha Hu h h' r r' Hh Hh' Hi Hr Hr'.
  apply lookup_insert_Some in Hh as [[<- <-]|[Hne Hh]]; apply lookup_insert_Some in Hh' as [[<- <-]|[Hne' Hh']]; cbn in *; try done.
  - destruct Ha. by exists h', r'.
  - destruct Ha. by exists h, r.
  - by apply (Hu h h' r r').
Qed.

Lemma cinv_init : cinv core_init.
Proof.
  split; cbn; try done.
  - intros id. split; [intros [? H]; by rewrite lookup_empty in H|]. intros (g & r & H & _). by rewrite lookup_empty in H.
  - intros _. split; [by left|done].
Qed.

Lemma fresh_next c : cinv c -> c_gors c !! c_next c = None.
Proof. intros V. destruct (c_gors c !! c_next c) eqn:H; [|done]. apply (ci_fresh c V) in H. lia. Qed.

(** A goroutine moves on, and the loop perhaps with it. *)
Lemma cinv_move c g id f x p p' lp : cinv c -> c_gors c !! g = Some (mkWGor id f x p) -> p <> WGone -> p' <> WGone ->
  (forall e, p <> WTaken e) -> (forall e, p' = WTaken e -> lp = LDo (ADone g)) ->
  (lp = c_loop c /\ (forall w, c_loop c = LDo (ASet g w) -> p' = WWait w \/ p' = WLost \/ exists e, p' = WSendDone e) \/
   c_loop c = LTop /\ ((exists w, lp = LDo (ASet g w) /\ p' = WWait w) \/ (exists e, lp = LDo (ADone g) /\ p' = WTaken e))) ->
  cinv (set_loop lp (put g (mkWGor id f x p') c)).
Proof.
  intros V Hg Hp Hp' Hnt Ht Hl. pose proof V as [V1 V2 V3 V4 V5 V6 V7 V8 V9 V10 V11 V12 V13 V14].
  split; cbn; try done.
  - intros id'. rewrite V1. symmetry. by eapply act_same.
  - by eapply uniq_same.
  - intros h r. destruct (decide (g = h)) as [<-|Hne]; [intros _; by eapply V3|rewrite lookup_insert_ne by done; by apply V3].
  - intros h r e. destruct (decide (g = h)) as [<-|Hne].
    + rewrite lookup_insert. intros [= <-]. cbn. by apply Ht.
    + rewrite lookup_insert_ne by done. intros Hh Hr. pose proof (V4 h r e Hh Hr) as H.
      destruct Hl as [[-> _]|[Hl _]]; [done|congruence].
  - destruct Hl as [[-> Hl]|[Hl0 [(w & -> & ->)|(e & -> & ->)]]].
    + destruct (c_loop c) as [|[ | | | |h w|h| ]| |] eqn:Hlo; try done.
      * destruct V5 as (r & Hh & Hr). destruct (decide (g = h)) as [<-|Hne].
        -- rewrite lookup_insert. eexists. split; [done|]. cbn. by apply Hl.
        -- rewrite lookup_insert_ne by done. eauto.
      * destruct V5 as (r & e & Hh & Hr). destruct (decide (g = h)) as [<-|Hne].
        -- rewrite Hg in Hh. injection Hh as <-. cbn in Hr. by destruct (Hnt e).
        -- rewrite lookup_insert_ne by done. eauto.
    + exists (mkWGor id f x (WWait w)). rewrite lookup_insert. cbn. auto.
    + exists (mkWGor id f x (WTaken e)), e. by rewrite lookup_insert.
  - intros Hd. destruct (V10 Hd) as [H|H]; [|by right]. destruct Hl as [[-> Hl]|[Hl _]]; [by left|congruence].
  - intros H. apply V12. destruct Hl as [[-> Hl]|[-> _]]; done.
  - intros H. destruct (V13 H) as [H1 H2]. split; [|done]. destruct Hl as [[-> Hl]|[Hl _]]; [done|congruence].
Qed.

Lemma put_same_loop g r c : put g r c = set_loop (c_loop c) (put g r c).
Proof. by destruct c. Qed.
(** Moves of goroutines that do not concern the loop *)
Lemma cinv_move' c g id f x p p' : cinv c -> c_gors c !! g = Some (mkWGor id f x p) -> p <> WGone -> p' <> WGone ->
  (forall e, p <> WTaken e) -> (forall e, p' <> WTaken e) ->
  ((exists w, p' = WWait w) \/ p' = WLost \/ (exists e, p' = WSendDone e) \/ (p <> WLost /\ (forall w, p <> WWait w) /\ forall e, p <> WSendDone e)) ->
  (forall w, p' <> WWait w) ->
  cinv (put g (mkWGor id f x p') c).
Proof.
  intros V Hg Hp Hp' Hnt Ht Hl Hw. rewrite put_same_loop. eapply (cinv_move c g id f x p p'); try done.
  - intros e ->. by destruct (Ht e).
  - left. split; [done|]. intros w Hlo. destruct Hl as [(w' & ->)|[->|[(e & ->)|(H1 & H2 & H3)]]].
    + by destruct (Hw w').
    + auto.
    + eauto.
    + pose proof (ci_loop c V) as H. rewrite Hlo in H. destruct H as (r & Hr & H). rewrite Hg in Hr. injection Hr as <-. cbn in H.
      destruct H as [H|[H|[e H]]]; [by destruct (H2 w)|done|by destruct (H3 e)].
Qed.

Lemma cinv_log c l : cinv c -> cinv (c <| c_log := l |>).
Proof. intros []; by split. Qed.
Lemma cinv_emit c ev : cinv c -> cinv (emit ev c).
Proof. intros []; by split. Qed.

(** The loop moves on without touching goroutines. *)
Lemma cinv_loop c a a' : cinv c -> c_loop c = a -> a <> LDo AKillAll -> a <> LEnded ->
  match a with LDo (ADone _) => False | _ => True end ->
  match a' with LDo (AStart _ _ _) | LDo (AReply _ _) | LDo (AKill _) | LDo ABcast | LTop => True | _ => False end ->
  cinv (set_loop a' c).
Proof.
  intros V Hl Ha He Hd Ha'. pose proof V as [V1 V2 V3 V4 V5 V6 V7 V8 V9 V10 V11 V12 V13 V14]. split; cbn; try done.
  - intros g r e Hg Hr. specialize (V4 g r e Hg Hr). rewrite <- Hl, V4 in Hd. done.
  - by destruct a' as [|[]| |].
  - intros Hdy. destruct (V10 Hdy); [congruence|by right].
  - intros _. apply V12. congruence.
  - intros Hdd. destruct (V13 Hdd). congruence.
Qed.

Lemma tomb_done_last t e : (t_reason t = StillAlive \/ t_reason t = Reason None) -> t_alive t = 1 -> t_dead t = false -> t_panic t = false ->
  (t_dead (tomb_done t e) = true -> t_dying (tomb_done t e) = true) /\ (t_dying t = true -> t_dying (tomb_done t e) = true) /\
  (t_dead (tomb_done t e) = true \/ t_panic (tomb_done t e) = true).
Proof.
  destruct t as [rs al dd pn]. cbn. intros Hr -> -> ->. unfold tomb_done, tomb_kill, t_dying. cbn.
  destruct e as [[]|], Hr as [-> | ->]; cbn; auto.
Qed.

Lemma cinv_trans P c c' : cinv c -> ctrans P c c' -> cinv c'.
Proof.
  intros V HT. pose proof V as [V1 V2 V3 V4 V5 V6 V7 V8 V9 V10 V11 V12 V13 V14]. pose proof (V1 : forall id, is_Some (c_workers c !! id) <-> act (c_gors c) id) as V1'. destruct HT.
  - done.
  - apply cinv_emit. split; cbn; try done.
    + intros Hl. destruct (V12 Hl) as (Hr & H1 & H2 & H3). by split; [right|].
    + intros Hd. destruct (V13 Hd). congruence.
    + intros Hw. split; [by apply V14|done].
  - by split.
  - by split.
  - split; cbn; try done; [|set_solver]. intros id i Hi. destruct (V6 id i Hi). split; [done|set_solver].
  - by apply cinv_emit.
  - (* dying *) apply cinv_emit. split; cbn; try done.
    + intros g r e Hg Hr. specialize (V4 g r e Hg Hr). congruence.
    + intros _. by left.
    + intros _. apply V12. congruence.
    + intros Hd. destruct (V13 Hd). congruence.
  - by eapply cinv_loop.
  - apply cinv_emit. by eapply cinv_loop.
  - eapply (cinv_move c g id f x (WSendStarted w)); try done. right. eauto.
  - eapply (cinv_move c g id f x (WSendDone e)); try done. right. eauto 10.
  - (* killall *) split; cbn; try done.
    + intros id. rewrite lookup_fmap, fmap_is_Some. apply V1.
    + intros g r e Hg Hr. specialize (V4 g r e Hg Hr). congruence.
    + intros id i. rewrite lookup_fmap, fmap_Some. intros (j & Hj & ->). by apply (V6 id j).
    + intros id id' i i'. rewrite !lookup_fmap, !fmap_Some. intros (j & Hj & ->) (j' & Hj' & ->). cbn. by eapply V7.
    + intros id i. rewrite lookup_fmap, fmap_Some. intros (j & Hj & ->). done.
    + intros _. right. intros id i. rewrite lookup_fmap, fmap_Some. intros (j & Hj & ->). done.
    + intros _. apply V12. congruence.
    + intros Hd. destruct (V13 Hd). congruence.
  - by eapply (cinv_loop (emit _ c)); [apply cinv_emit|..].
  - by eapply (cinv_loop (emit _ c)); [apply cinv_emit|..].
  - (* new *) pose proof (fresh_next c V) as Hfr. split; cbn; try done.
    + intros id'. etransitivity; [|symmetry; by apply (act_new _ _ _ _ _ _ _ Hfr)]. rewrite <- V1'.
      destruct (decide (id' = id)) as [->|Hne]; [rewrite lookup_insert; naive_solver|rewrite lookup_insert_ne by done; naive_solver].
    + apply uniq_new; [done| |done]. rewrite <- V1', H1. by intros [? ?].
    + intros g r. rewrite lookup_insert_Some. intros [[<- _]|[_ Hg]]; [lia|]. apply V3 in Hg. lia.
    + intros g r e. rewrite lookup_insert_Some. intros [[<- <-]|[_ Hg]]; [done|]. intros Hr. specialize (V4 _ _ _ Hg Hr). congruence.
    + intros id' n. rewrite lookup_insert_Some. intros [[<- <-]|[_ Hn]]; cbn.
      * split; [lia|]. intros Hs%V8. lia.
      * destruct (V6 _ _ Hn). split; [lia|done].
    + intros id1 id2 i1 i2. rewrite !lookup_insert_Some. intros [[<- <-]|[Hn1 H3]] [[<- <-]|[Hn2 H4]]; cbn; try done.
      * destruct (V6 _ _ H4). lia.
      * destruct (V6 _ _ H3). lia.
      * by apply V7.
    + intros d Hd%V8. lia.
    + intros id' n. rewrite lookup_insert_Some. intros [[<- <-]|[_ Hn]]; cbn; [done|]. by apply V9 in Hn.
    + congruence.
    + intros _. apply V12. congruence.
    + intros Hd. destruct (V13 Hd). congruence.
  - by eapply cinv_loop.
  - by eapply cinv_loop.
  - (* stop *) assert (c_loop c <> LDo AKillAll /\ c_loop c <> LEnded) as [Hn1 Hn2] by (split; congruence). split; cbn; try done.
    + intros id'. rewrite <- V1. destruct (decide (id' = id)) as [->|Hne]; [rewrite lookup_insert, H0; naive_solver|by rewrite lookup_insert_ne].
    + intros g r e Hg Hr. specialize (V4 g r e Hg Hr). congruence.
    + intros id' n. rewrite lookup_insert_Some. intros [[<- <-]|[_ Hn]]; cbn; [|by apply (V6 id')]. by apply (V6 id).
    + intros id1 id2 i1 i2. rewrite !lookup_insert_Some. intros [[<- <-]|[Hn1' H3]] [[<- <-]|[Hn2' H4]]; cbn; try done; eauto.
    + intros id' n. rewrite lookup_insert_Some. intros [[<- <-]|[_ Hn]]; cbn; [done|]. by apply V9 in Hn.
    + intros Hd. right. destruct (V10 Hd) as [|Hall]; [done|]. intros id' n. rewrite lookup_insert_Some. intros [[<- <-]|[_ Hn]]; [done|eauto].
    + intros _. by apply V12.
    + intros Hd. by destruct (V13 Hd).
  - (* set live *) assert (c_loop c <> LDo AKillAll /\ c_loop c <> LEnded) as [Hn1 Hn2] by (split; congruence). split; cbn; try done.
    + intros id'. rewrite <- V1. destruct (decide (id' = id)) as [->|Hne]; [rewrite lookup_insert, H1; naive_solver|by rewrite lookup_insert_ne].
    + intros h r e Hg Hr. specialize (V4 h r e Hg Hr). congruence.
    + intros id' n. rewrite lookup_insert_Some. intros [[<- <-]|[_ Hn]]; cbn; [|by apply (V6 id')]. by apply (V6 id).
    + intros id1 id2 i1 i2. rewrite !lookup_insert_Some. intros [[<- <-]|[Hn1' H4]] [[<- <-]|[Hn2' H5]]; cbn; try done; eauto.
    + intros id' n. rewrite lookup_insert_Some. intros [[<- <-]|[_ Hn]]; cbn; [|by apply V9 in Hn]. destruct (V9 _ _ H1). split; [done|congruence].
    + congruence.
    + intros _. by apply V12.
    + intros Hd. by destruct (V13 Hd).
  - (* set kill *) assert (c_loop c <> LDo AKillAll /\ c_loop c <> LEnded) as [Hn1 Hn2] by (split; congruence). split; cbn; try done.
    + intros id'. rewrite <- V1. destruct (decide (id' = id)) as [->|Hne]; [rewrite lookup_insert, H1; naive_solver|by rewrite lookup_insert_ne].
    + intros h r e Hg Hr. specialize (V4 h r e Hg Hr). congruence.
    + intros id' n. rewrite lookup_insert_Some. intros [[<- <-]|[_ Hn]]; cbn; [|by apply (V6 id')]. by apply (V6 id).
    + intros id1 id2 i1 i2. rewrite !lookup_insert_Some. intros [[<- <-]|[Hn1' H4]] [[<- <-]|[Hn2' H5]]; cbn; try done; eauto.
    + intros id' n. rewrite lookup_insert_Some. intros [[<- <-]|[_ Hn]]; cbn; [done|]. by apply V9 in Hn.
    + intros Hd. right. destruct (V10 Hd) as [|Hall]; [done|]. intros id' n. rewrite lookup_insert_Some. intros [[<- <-]|[_ Hn]]; [done|eauto].
    + intros _. by apply V12.
    + intros Hd. by destruct (V13 Hd).
  - (* remove *) assert (c_loop c <> LDo AKillAll /\ c_loop c <> LEnded) as [Hn1 Hn2] by (split; congruence). destruct (V6 _ _ H1) as [Hd1 Hd2]. split; cbn; try done.
    + intros id'. etransitivity; [|symmetry; by apply (act_gone _ _ _ _ _ _ _ H0 ltac:(done) V2)]. rewrite <- V1'. destruct (decide (id' = id)) as [->|Hne]; [rewrite lookup_delete; split; [by intros []|tauto]|rewrite lookup_delete_ne by done; naive_solver].
    + by apply uniq_gone.
    + intros h r. rewrite lookup_insert_Some. intros [[<- _]|[_ Hg]]; eauto.
    + intros h r y. rewrite lookup_insert_Some. intros [[<- <-]|[? Hg]]; [done|]. intros Hr. specialize (V4 _ _ _ Hg Hr). congruence.
    + intros id' n. rewrite lookup_delete_Some. intros [Hne Hn]. destruct (V6 _ _ Hn). split; [done|].
      intros [Hx%elem_of_singleton|Hx]%elem_of_union; [|done]. by apply Hne, (V7 _ _ _ _ H1 Hn).
    + intros id1 id2 i1 i2. rewrite !lookup_delete_Some. intros [_ ?] [_ ?]. eauto.
    + intros d [->%elem_of_singleton|Hx]%elem_of_union; eauto.
    + intros id' n. rewrite lookup_delete_Some. intros [_ Hn]. eauto.
    + intros Hd. right. destruct (V10 Hd) as [|Hall]; [done|]. intros id' n. rewrite lookup_delete_Some. intros [_ Hn]. eauto.
    + intros _. by apply V12.
    + intros Hd. by destruct (V13 Hd).
  - (* fatal *) assert (c_loop c <> LDo AKillAll /\ c_loop c <> LEnded) as [Hn1 Hn2] by (split; congruence). destruct (V6 _ _ H1) as [Hd1 Hd2]. split; cbn; try done.
    + intros id'. etransitivity; [|symmetry; by apply (act_gone _ _ _ _ _ _ _ H0 ltac:(done) V2)]. rewrite <- V1'. destruct (decide (id' = id)) as [->|Hne]; [rewrite lookup_delete; split; [by intros []|tauto]|rewrite lookup_delete_ne by done; naive_solver].
    + by apply uniq_gone.
    + intros h r. rewrite lookup_insert_Some. intros [[<- _]|[_ Hg]]; eauto.
    + intros h r z. rewrite lookup_insert_Some. intros [[<- <-]|[? Hg]]; [done|]. intros Hr. specialize (V4 _ _ _ Hg Hr). congruence.
    + by destruct (c_dying c).
    + intros id' n. rewrite lookup_delete_Some. intros [Hne Hn]. destruct (V6 _ _ Hn). split; [done|].
      intros [Hx%elem_of_singleton|Hx]%elem_of_union; [|done]. by apply Hne, (V7 _ _ _ _ H1 Hn).
    + intros id1 id2 i1 i2. rewrite !lookup_delete_Some. intros [_ ?] [_ ?]. eauto.
    + intros d [->%elem_of_singleton|Hx]%elem_of_union; eauto.
    + intros id' n. rewrite lookup_delete_Some. intros [_ Hn]. eauto.
    + intros _. destruct (c_dying c) eqn:Hdy; [right|by left]. destruct (V10 eq_refl) as [|Hall]; [done|]. intros id' n. rewrite lookup_delete_Some. intros [_ Hn]. eauto.
    + intros _. by apply V12.
    + intros Hd. by destruct (V13 Hd).
    + intros Hw. destruct (V14 Hw). done.
  - (* restart *) assert (c_loop c <> LDo AKillAll /\ c_loop c <> LEnded) as [Hn1 Hn2] by (split; congruence).
    assert (g <> c_next c) as Hgn. { apply V3 in H0. lia. }
    assert (<[g:={| w_id := id; w_fn := f; w_ctx := x; w_pc := WGone |}]> (c_gors c) !! c_next c = None) as Hfr.
    { rewrite lookup_insert_ne by done. by apply fresh_next. }
    split; cbn; try done.
    + intros id'. etransitivity; [|symmetry; by apply (act_new _ _ _ _ _ _ _ Hfr)]. rewrite (act_gone _ _ _ _ _ _ _ H0 ltac:(done) V2), <- V1'.
      destruct (decide (id' = id)) as [->|Hne]; [rewrite lookup_insert; naive_solver|rewrite lookup_insert_ne by done; naive_solver].
    + apply uniq_new; [done| |by apply uniq_gone]. rewrite (act_gone _ _ _ _ _ _ _ H0 ltac:(done) V2). tauto.
    + intros h r. rewrite !lookup_insert_Some. intros [[<- _]|[_ [[<- _]|[_ Hg]]]]; [lia| |]; apply Nat.lt_lt_succ_r; eauto.
    + intros h r y. rewrite !lookup_insert_Some. intros [[<- <-]|[_ [[<- <-]|[? Hg]]]]; [done|done|]. intros Hr. specialize (V4 _ _ _ Hg Hr). congruence.
    + intros id' n. rewrite lookup_insert_Some. intros [[<- <-]|[_ Hn]]; cbn; eauto.
    + intros id1 id2 i1 i2. rewrite !lookup_insert_Some. intros [[<- <-]|[Hn1' H4]] [[<- <-]|[Hn2' H5]]; cbn; try done; eauto.
    + intros id' n. rewrite lookup_insert_Some. intros [[<- <-]|[_ Hn]]; cbn; [|by apply V9 in Hn]. by apply V9 in H1.
    + intros Hd. right. destruct (V10 Hd) as [|Hall]; [done|]. intros id' n. rewrite lookup_insert_Some. intros [[<- <-]|[_ Hn]]; [cbn; exact (Hall id _ H1)|eauto].
    + intros _. by apply V12.
    + intros Hd. by destruct (V13 Hd).
  - by eapply cinv_loop.
  - (* return *) unfold finished in H0. apply andb_true_iff in H0 as [Hd He]. apply bool_decide_eq_true in He.
    split; cbn; try done.
    + intros g r e Hg Hr. specialize (V4 g r e Hg Hr). congruence.
    + intros _. right. rewrite He. done.
    + intros Hx. split; [done|]. destruct (V12 ltac:(congruence)) as (Hr & Hal & Hdd & Hp). destruct (tomb_done_last (c_tomb c) (c_final c) Hr Hal Hdd Hp) as (Ha & Hb & _). auto.
    + intros Hw. destruct (V14 Hw) as [H1 H2]. split; [done|]. destruct (V12 ltac:(congruence)) as (Hr & Hal & Hdd & Hp). destruct (tomb_done_last (c_tomb c) (c_final c) Hr Hal Hdd Hp) as (Ha & Hb & _). auto.
  - eapply cinv_move'; try done. right; right; right. done.
  - apply cinv_emit. eapply cinv_move'; try done. right; right; right. done.
  - apply cinv_emit. eapply cinv_move'; try done. right; right; right. done.
  - eapply cinv_move'; try done. right; right; left. eauto.
  - apply cinv_emit. eapply (cinv_move' c g id f x WStart); try done; destruct r; try done. all: right; right; right; done.
  - by split.
  - eapply cinv_move'; try done. right; right; left. eauto.
  - eapply cinv_move'; try done. auto.
Qed.

Definition creach (P : rcfg) (c : core) : Prop := exists ls, foldl (fun o l => o ≫= fun c => cstep P c l) (Some core_init) ls = Some c.
Lemma creach_ind P (I : core -> Prop) : I core_init -> (forall c c', cinv c -> I c -> cinv c' -> ctrans P c c' -> I c') -> forall c, creach P c -> cinv c /\ I c.
Proof.
  intros H0 Hs c [ls Hls]. revert c Hls. induction ls as [|l ls IH] using rev_ind; intros c.
  - intros [= <-]. split; [apply cinv_init|done].
  - rewrite foldl_app. cbn. destruct (foldl _ _ ls) as [c1|]; [|done]. cbn. intros Hc. destruct (IH c1 eq_refl) as [V1 I1].
    pose proof (cstep_trans P c1 l c V1 Hc) as HT. pose proof (cinv_trans P c1 c V1 HT) as V2. split; [exact V2|exact (Hs c1 c V1 I1 V2 HT)].
Qed.
Lemma creach_inv P c : creach P c -> cinv c.
Proof. intros H. by destruct (creach_ind P (fun _ => True) I ltac:(done) c H). Qed.
