(** Infinite executions of the catacomb: shutdown comes to its end (C80). *)
From stdpp Require Import gmap strings list.
From RecordUpdate Require Import RecordSet.
From Verif Require Import Err Tomb Sum Catacomb CatacombSpec CatacombProgressSpec CatacombInv CatacombTr CatacombLog CatacombHist CatacombProgress CatacombThms CatacombMore TreeCatacomb TreeFinish
  FairSpec FairCatacombSpec FairProofs.
Import RecordSetNotations.

Definition cmeasure (s : state) : nat * nat := (budget s, length (filter (fun k => x_ended s !! k = None) (omap Tree.ckill (x_log s)))).

Lemma cstep_measure me s l s' : reachable me s -> step me s l = Some s' -> new_work l = false ->
  (cmeasure s' = cmeasure s \/ lexlt (cmeasure s') (cmeasure s)) /\ (due s l -> lexlt (cmeasure s') (cmeasure s)).
Proof.
  intros Hr Hs Hn. pose proof (reach_cinv me s Hr) as V. destruct (step_tr me s l s' V Hs) as [_ Ht].
  destruct (request l) eqn:Hq.
  - split; [left|by destruct l]. destruct Ht; try done.
    match goal with H : kres _ _ _ _ _ _ _ |- _ => by destruct H end.
  - pose proof (budget_step me s l s' V Ht Hq) as Hb. destruct (foreign l) eqn:Hf; [|split; [right|intros _]; left; cbn; lia].
    destruct Ht; try done.
    + assert (Hlt : lexlt (cmeasure (s <| x_work := WkKill e |> <| x_log ::= app [EvWorkRet (WkReturn e)] |>)) (cmeasure s)); [|by auto].
      left. unfold cmeasure, budget. cbn -[msum]. match goal with H : x_work s = _ |- _ => rewrite H end. cbn -[msum]. lia.
    + match goal with |- (_ \/ ?P) /\ _ => assert (Hlt : P); [|by auto] end.
      left. unfold cmeasure, budget. cbn -[msum]. match goal with H : x_work s = _ |- _ => rewrite H end. cbn -[msum]. lia.
    + match goal with |- (_ \/ ?P) /\ _ => assert (Hlt : P); [|by auto] end.
      left. unfold cmeasure, budget. cbn -[msum]. match goal with H : x_work s = _ |- _ => rewrite H end. cbn -[msum]. lia.
    + assert (Hbb : budget (s <| x_ended ::= <[n := e]> |> <| x_log ::= app [EvEnd n e] |>) = budget s) by done.
      unfold lexlt, cmeasure. rewrite Hbb. cbn [fst snd x_ended x_log]. cbn -[budget filter].
      destruct (decide (n ∈ omap Tree.ckill (x_log s))) as [Hin|Hin].
      * assert (H1 := filter_less (omap Tree.ckill (x_log s)) (x_ended s) n e Hin H). split; [right|intros _]; right; (split; [done|]); exact H1.
      * split.
        -- left. f_equal. assert (Hall : forall ks : list nat, n ∉ ks -> filter (fun k => <[n := e]> (x_ended s) !! k = None) ks = filter (fun k => x_ended s !! k = None) ks).
           { intros ks. induction ks as [|k ks IHk]; [done|]. intros Hk. rewrite not_elem_of_cons in Hk. destruct Hk as [Hk1 Hk2]. rewrite !filter_cons, (IHk Hk2). rewrite (lookup_insert_ne (x_ended s) n k e) by done. by destruct (decide (x_ended s !! k = None)). }
           by rewrite (Hall _ Hin).
        -- intros (who & Hk). destruct Hin. apply elem_of_list_omap. by exists (EvWKill who (WExt n)).
Qed.

Lemma catacomb_dies me tr lab i : reachable me (tr 0) -> execution (step me) tr lab -> not_starved (step me) due tr lab ->
  (forall j l, i <= j -> lab j = Some l -> new_work l = false) ->
  (forall j, x_crash (tr j) = false /\ EvWorkRet WkGoexit ∉ x_log (tr j) /\ forall b, EvBind b WSelf ∉ x_log (tr j)) ->
  (exists c, EvUsed c ∈ x_log (tr i)) -> is_dying (x_log (tr i)) -> exists j, i <= j /\ EvDead ∈ x_log (tr j).
Proof.
  intros Hr0 He Hf Hq Hgood Hu Hd.
  assert (Hra : forall j, reachable me (tr j)).
  { intros j. apply (exec_inv _ tr lab (reachable me) He 0 Hr0); [|lia]. intros j' l _ _ H Hs. exact (reach_step me _ _ _ H Hs). }
  destruct (settles_wf lexlt (step me) due (fun s => is_dying (x_log s) /\ exists c, EvUsed c ∈ x_log s) cmeasure tr lab i lexlt_wf _ He Hf (conj Hd Hu)) as (j & Hj & [Hdj [c Huj]] & Hno).
  - intros j l Hj El [(src & e & H1) [c H2]] Hs. split; [split; [exists src, e|exists c]; by apply (step_log me _ _ _ _ (Hra j) Hs)|]. apply (cstep_measure me _ _ _ (Hra j) Hs), (Hq j l Hj El).
  - exists j. split; [done|]. destruct (Hgood j) as (Hc & Hg & Hself).
    apply (all_done me (tr j) (Hra j)); try done.
    + split; intros E; pose proof (l_work me _ (Hra j)) as W; unfold wfact in W; rewrite E in W; destruct W as (_ & W); by apply Hg, W.
    + intros E. pose proof (reach_cinv me _ (Hra j)) as V. assert (Hi : at_rest me (tr j)) by (intros l Hl; apply Hno; by destruct l).
      pose proof (rest_rested me _ Hc Hi) as R. assert (Hu2 : x_dirty (tr j) = true) by (apply (li_dirty _ _ (l_linv me _ (Hra j))); by exists c).
      destruct (c_has _ V Hu2 E) as (j' & pc & Hj' & Ha). pose proof (r_invs _ R j' pc Hj'). by destruct pc.
    + intros l Hl. apply Hno. destruct l; done.
    + by apply Hno.
    + intros who k Hk. apply Hno. by exists who.
Qed.
