(** C74: the runner keeps up with its work. *)
From stdpp Require Import gmap strings list.
From Coq Require Import ZArith.
From RecordUpdate Require Import RecordSet.
From Verif Require Import Err Tomb Sum Runner RunnerSpec RunnerInv RunnerLog RunnerGor RunnerHist RunnerThms RunnerCalls RunnerUse RunnerAnswers RunnerMore RunnerProgress RunnerLiveSpec.
Import RecordSetNotations.

(** ** A measure *)
Definition vgw (ended : gmap nat (option err)) (g : nat) (r : wgor) : nat :=
  match w_pc r with
  | WBegin _ => 6 | WTimer _ => 5 | WStart => 0
  | WSendStarted _ => if decide (is_Some (ended !! g)) then 14 else 3
  | WWait _ => if decide (is_Some (ended !! g)) then 11 else 0
  | WSendDone None => 4 | WSendDone (Some _) => 10
  | WTaken None => 0 | WTaken (Some _) => 6
  | _ => 0
  end.
Definition vlw (p : lpc) : nat :=
  match p with
  | LTop => 1 | LEnded | LBlocked => 0
  | LDo ABcast => 2 | LDo (AStart _ _ _) => 10 | LDo (ADone _) => 4 | LDo _ => 3
  end.
Definition vm (c : core) : nat := msum (vgw (c_ended c)) (c_gors c) + vlw (c_loop c) + (if c_watch c then 3 else 0).
Definition cw (p : cpc) : nat :=
  match p with
  | CStart _ _ => 11 | CReply _ _ => 1 | CStop _ => 4 | CInfo _ _ => 5 | CCheck _ _ _ => 4 | CSelect _ _ => 4 | CGotNF _ _ => 1
  | CKill _ _ _ _ => 3 | CWait _ _ _ => 2 | CDone _ _ _ => 1 | CRet => 0
  end.
Definition am (s : state) : nat := vm (s_core s) + msum (fun _ p => cw p) (s_calls s).
Definition vmeasure (s : state) : nat := am s * (3 * size (s_calls s) + 4) + wm (s_waits s).

Lemma vm_put c c' g r r' : c_gors c !! g = Some r -> c_ended c' = c_ended c -> c_gors c' = <[g := r']> (c_gors c) -> c_watch c' = c_watch c ->
  vm c' + vgw (c_ended c) g r + vlw (c_loop c) = vm c + vgw (c_ended c) g r' + vlw (c_loop c').
Proof. intros Hg He Hgs Hw. unfold vm. rewrite He, Hgs, Hw. pose proof (msum_upd (vgw (c_ended c)) (c_gors c) g r r' Hg). lia. Qed.
Lemma vm_loop c c' : c_ended c' = c_ended c -> c_gors c' = c_gors c -> c_watch c' = c_watch c -> vm c' + vlw (c_loop c) = vm c + vlw (c_loop c').
Proof. unfold vm. intros -> -> ->. lia. Qed.
Lemma vm_spawn c c' id f x d : c_gors c !! c_next c = None -> c_ended c' = c_ended c -> c_gors c' = <[c_next c := mkWGor id f x (WBegin d)]> (c_gors c) -> c_watch c' = c_watch c ->
  vm c' + vlw (c_loop c) = vm c + 6 + vlw (c_loop c').
Proof. intros Hg He Hgs Hw. unfold vm. rewrite He, Hgs, Hw, msum_new by done. cbn. lia. Qed.

Lemma works_core P c l c' : cinv c -> works (LCore l) = true -> cstep P c l = Some c' -> vm c' < vm c.
Proof.
  intros V Hi Hs. destruct l; try done; cbn [cstep] in Hs.
  - (* KDying *) destruct (at_select c) eqn:Ha; [|done]. destruct (c_watch c) eqn:Hw; [|done]. destruct (t_dying (c_tomb c)); [|done]. injection Hs as <-.
    apply at_select_top in Ha. unfold vm. cbn. rewrite Ha, Hw. cbn. lia.
  - (* KRecvStarted *) destruct (c_gors c !! g) as [[id f x p]|] eqn:Hg; [|done]. destruct p; try done. destruct (at_select c) eqn:Ha; [|done]. injection Hs as <-. apply at_select_top in Ha.
    match goal with |- vm ?c' < _ => pose proof (vm_put c c' g _ _ Hg eq_refl (set_pc_gors g (WWait w) c _ Hg) eq_refl) as Hm end.
    rewrite Ha in Hm. unfold vgw in Hm. cbn in Hm |- *. case_decide; lia.
  - (* KRecvDone *) destruct (c_gors c !! g) as [[id f x p]|] eqn:Hg; [|done]. destruct p; try done. destruct (at_select c) eqn:Ha; [|done]. injection Hs as <-. apply at_select_top in Ha.
    match goal with |- vm ?c' < _ => pose proof (vm_put c c' g _ _ Hg eq_refl (set_pc_gors g (WTaken e) c _ Hg) eq_refl) as Hm end.
    rewrite Ha in Hm. unfold vgw in Hm. cbn in Hm |- *. destruct e; lia.
  - (* KAct *) destruct (c_loop c) as [|a| |] eqn:Hl; try done.
    assert (c_gors c !! c_next c = None) as Hfr. { destruct (c_gors c !! c_next c) eqn:Hn; [|done]. apply (ci_fresh c V) in Hn. lia. }
    destruct a.
    + injection Hs as <-. destruct (kill_all_frame c) as (G1 & G2 & G3 & G4). pose proof (vm_loop c (set_loop (LDo ABcast) (kill_all c)) G1 G2 G3) as Hm. rewrite Hl in Hm. cbn in Hm. lia.
    + injection Hs as <-. unfold start_worker. destruct (c_dying c); [|destruct (c_workers c !! id)].
      * match goal with |- vm ?c' < _ => pose proof (vm_loop c c' eq_refl eq_refl eq_refl) as Hm end. rewrite Hl in Hm. cbn in Hm |- *. lia.
      * match goal with |- vm ?c' < _ => pose proof (vm_loop c c' eq_refl eq_refl eq_refl) as Hm end. rewrite Hl in Hm. cbn in Hm |- *. lia.
      * match goal with |- vm ?c' < _ => pose proof (vm_spawn c c' _ _ _ _ Hfr eq_refl eq_refl eq_refl) as Hm end. rewrite Hl in Hm. cbn in Hm |- *. lia.
    + injection Hs as <-. match goal with |- vm ?c' < _ => pose proof (vm_loop c c' eq_refl eq_refl eq_refl) as Hm end. rewrite Hl in Hm. cbn in Hm |- *. lia.
    + injection Hs as <-. destruct (kill_worker_frame id c) as (G1 & G2 & G3 & G4). pose proof (vm_loop c (set_loop (LDo ABcast) (kill_worker id c)) G1 G2 G3) as Hm. rewrite Hl in Hm. cbn in Hm. lia.
    + destruct (c_gors c !! g) as [r|] eqn:Hg; [|done]. injection Hs as <-. pose proof (ci_loop c V) as Hlo. rewrite Hl in Hlo. destruct Hlo as (r' & Hg' & Hp). rewrite Hg in Hg'. injection Hg' as <-.
      destruct (proj2 (ci_act c V (w_id r))) as [i Hn]. { exists g, r. split_and!; [done|done|]. destruct Hp as [Hp|[Hp|[? Hp]]]; by rewrite Hp. }
      unfold set_worker. rewrite Hn. destruct (c_dying c || i_stopping i).
      * match goal with |- context [kill_worker ?id ?c1] => destruct (kill_worker_frame id c1) as (G1 & G2 & G3 & G4); pose proof (vm_loop c (set_loop (LDo ABcast) (kill_worker id c1)) G1 G2 G3) as Hm end.
        rewrite Hl in Hm. cbn in Hm. lia.
      * match goal with |- vm ?c' < _ => pose proof (vm_loop c c' eq_refl eq_refl eq_refl) as Hm end. rewrite Hl in Hm. cbn in Hm |- *. lia.
    + destruct (c_gors c !! g) as [[id f x p]|] eqn:Hg; [|done]. destruct p; try done. injection Hs as <-.
      destruct (proj2 (ci_act c V id)) as [i Hn]. { eexists g, _. split_and!; [done|done|done]. }
      destruct (ci_done c V _ _ Hn) as [_ Hsig]. destruct (ci_stop c V _ _ Hn) as [Hst _].
      assert (forall p, c_gors (set_pc g p c) = <[g := mkWGor id f x p]> (c_gors c)) as Hsp by (intros p; apply (set_pc_gors g p c _ Hg)).
      assert (forall c1 b, c_ended c1 = c_ended c -> c_gors c1 = <[g := mkWGor id f x WGone]> (c_gors c) -> c_watch c1 = c_watch c -> c_signals c1 = c_signals c -> b = ABcast \/ b = AKillAll ->
        vm (remove_worker id (i_done i) b c1) < vm c) as Hrm.
      { intros c1 b E1 E2 E3 E4 Hb. unfold remove_worker. rewrite E4, bool_decide_eq_false_2 by done.
        match goal with |- vm ?c' < _ => pose proof (vm_put c c' g _ _ Hg E1 E2 E3) as Hm end. rewrite Hl in Hm. unfold vgw in Hm. cbn in Hm |- *. destruct Hb as [-> | ->], e; lia. }
      unfold worker_done. cbn [c_workers emit set_pc]. unfold emit at 1, set_pc at 1. cbn [c_workers].
      replace (c_workers _) with (c_workers c) by done. rewrite Hn.
      destruct e as [e|].
      * destruct (r_isFatal P e).
        { destruct (c_dying _); cbn -[remove_worker].
          - apply Hrm; try done; [apply (Hsp WGone)|by left].
          - match goal with |- context [remove_worker ?i1 ?i2 ?i3 ?i4] => assert (vm (remove_worker i1 i2 i3 i4) < vm c) as Hm by (apply Hrm; try done; [apply (Hsp WGone)|by right]) end.
            exact Hm. }
        destruct (negb _); [apply Hrm; try done; [apply (Hsp WGone)|by left]|].
        destruct (i_start i) as [f'|]; [|apply Hrm; try done; [apply (Hsp WGone)|by left]].
        match goal with |- vm ?c' < _ => assert (vm c' + vgw (c_ended c) g (mkWGor id f x (WTaken (Some e))) + vlw (c_loop c) = vm c + 6 + vlw (c_loop c')) as Hm end.
        { match goal with |- vm ?c' + _ + _ = _ => assert (c_gors c' = <[c_next c := mkWGor id f' None (WBegin (i_delay i))]> (<[g := mkWGor id f x WGone]> (c_gors c))) as Hgs end.
          { rewrite <- (Hsp WGone). reflexivity. }
          match goal with |- vm ?c' + _ + _ = _ => assert (c_ended c' = c_ended c) as He by reflexivity; assert (c_watch c' = c_watch c) as Hw by reflexivity;
            generalize dependent c'; intros c1 Hgs He Hw end.
          unfold vm. rewrite Hgs, He, Hw. rewrite msum_new.
          - pose proof (msum_upd (vgw (c_ended c)) (c_gors c) g _ (mkWGor id f x WGone) Hg) as Hu. cbn in Hu. cbn. lia.
          - rewrite lookup_insert_ne; [done|]. intros ->. congruence. }
        rewrite Hl in Hm. cbn in Hm |- *. lia.
      * destruct (negb (i_stopping i)) eqn:Hns; [apply Hrm; try done; [apply (Hsp WGone)|by left]|].
        rewrite (proj1 Hst) by (by destruct (i_stopping i)). apply Hrm; try done; [apply (Hsp WGone)|by left].
    + injection Hs as <-. match goal with |- vm ?c' < _ => pose proof (vm_loop c c' eq_refl eq_refl eq_refl) as Hm end. rewrite Hl in Hm. cbn in Hm |- *. lia.
  - (* KReturn *) destruct (c_loop c) eqn:Hl; try done. destruct (finished c); [|done]. injection Hs as <-. unfold vm. cbn. destruct (t_dead _); cbn; rewrite Hl; cbn; lia.
  - (* KBegin *) destruct (c_gors c !! g) as [[id f x p]|] eqn:Hg; [|done]. destruct p; try done. destruct (0 <? d)%Z; injection Hs as <-;
      (match goal with |- vm ?c' < _ => pose proof (vm_put c c' g _ _ Hg eq_refl (set_pc_gors g _ c _ Hg) eq_refl) as Hm end; unfold vgw in Hm; cbn in Hm |- *; lia).
  - (* KFire *) destruct (c_gors c !! g) as [[id f x p]|] eqn:Hg; [|done]. destruct p; try done. destruct (_ <=? _)%Z; [|done]. injection Hs as <-.
    match goal with |- vm ?c' < _ => pose proof (vm_put c c' g _ _ Hg eq_refl (set_pc_gors g _ c _ Hg) eq_refl) as Hm end. unfold vgw in Hm. cbn in Hm |- *. lia.
  - (* KDelayAbort *) destruct (c_gors c !! g) as [[id f x p]|] eqn:Hg; [|done]. destruct p; try done. destruct (t_dying _); [|done]. injection Hs as <-.
    match goal with |- vm ?c' < _ => pose proof (vm_put c c' g _ _ Hg eq_refl (set_pc_gors g _ c _ Hg) eq_refl) as Hm end. unfold vgw in Hm. cbn in Hm |- *. lia.
  - (* KExit *) destruct (c_gors c !! g) as [[id f x p]|] eqn:Hg; [|done]. destruct p; try done. destruct (c_ended c !! g) as [e|] eqn:He; [|done]. injection Hs as <-.
    match goal with |- vm ?c' < _ => pose proof (vm_put c c' g _ _ Hg eq_refl (set_pc_gors g _ c _ Hg) eq_refl) as Hm end. unfold vgw in Hm. cbn in Hm |- *.
    rewrite decide_True in Hm by (rewrite He; eauto). destruct e; lia.
Qed.

Definition csum (m : gmap nat cpc) : nat := msum (fun _ p => cw p) m.
Lemma csum_upd m i p q : m !! i = Some p -> csum (<[i := q]> m) + cw p = csum m + cw q.
Proof. intros H. apply (msum_upd (fun _ p => cw p) m i p q H). Qed.
Lemma csize_upd (m : gmap nat cpc) k x y : m !! k = Some x -> size (<[k := y]> m) = size m.
Proof. intros Hk. apply map_size_insert_Some. eauto. Qed.
Lemma wm_ins m i t : wm (<[i := t]> m) <= wm m + ww t.
Proof.
  destruct (m !! i) as [t0|] eqn:H; [pose proof (wm_upd m i t0 t H); lia|]. unfold wm. rewrite msum_new by done. lia.
Qed.
Lemma wm_alter (m : gmap nat waiter) i : wm (alter (fun t => t <| t_stopped := true |>) i m) = wm m.
Proof.
  destruct (m !! i) as [t|] eqn:H.
    assert (alter (fun t => t <| t_stopped := true |>) i m = <[i := t <| t_stopped := true |>]> m) as ->.
    { apply map_eq. intros j. destruct (decide (j = i)) as [-> |]; [by rewrite lookup_alter, lookup_insert, H|by rewrite lookup_alter_ne, lookup_insert_ne by done]. }
    pose proof (wm_upd m i t (t <| t_stopped := true |>) H) as Hm. destruct t. unfold ww in Hm. cbn -[wm] in Hm. cbn -[wm]. lia.
  - f_equal. apply map_eq. intros j. destruct (decide (j = i)) as [-> |]; [by rewrite lookup_alter, H|by rewrite lookup_alter_ne].
Qed.
Lemma waits_size P s : reachable P s -> size (s_waits s) <= size (s_calls s).
Proof.
  intros Hr. rewrite <- !size_dom. apply subseteq_size. intros i Hi. apply elem_of_dom in Hi as [t Ht]. apply elem_of_dom.
  destruct (li_wait s (reach_linv P s Hr) _ _ Ht) as ((k & Hk) & _). exact (called_some P s Hr _ _ Hk).
Qed.

Lemma vless s s' : am s' < am s -> size (s_calls s') = size (s_calls s) -> wm (s_waits s') <= wm (s_waits s) + 3 * size (s_calls s) + 3 -> vmeasure s' < vmeasure s.
Proof. unfold vmeasure. intros H -> Hw. nia. Qed.
Lemma vless_same s s' : am s' < am s -> size (s_calls s') = size (s_calls s) -> s_waits s' = s_waits s -> vmeasure s' < vmeasure s.
Proof. intros H1 H2 H3. apply vless; [done|done|]. rewrite H3. lia. Qed.
Lemma vless_call s s' i p q : s_calls s !! i = Some p -> s_calls s' = <[i := q]> (s_calls s) -> vm (s_core s') + cw q < vm (s_core s) + cw p -> s_waits s' = s_waits s -> vmeasure s' < vmeasure s.
Proof.
  intros Hp Hc Hv Hw. apply vless_same; [|by rewrite Hc, (csize_upd _ _ _ _ Hp)|done]. unfold am. rewrite Hc. pose proof (csum_upd _ i p q Hp) as Hu. unfold csum in Hu. lia.
Qed.
Lemma vless_wait s s' i t t' : am s' = am s -> size (s_calls s') = size (s_calls s) -> s_waits s !! i = Some t -> s_waits s' = <[i := t']> (s_waits s) -> ww t' < ww t -> vmeasure s' < vmeasure s.
Proof. unfold vmeasure. intros H -> Ht -> Hw. rewrite H. pose proof (wm_upd (s_waits s) i t t' Ht). lia. Qed.

Lemma deliver_less i k id r s p : s_calls s !! i = Some p -> 3 < cw p -> vmeasure (deliver i k id r s) < vmeasure s.
Proof.
  intros Hp Hw. unfold deliver. destruct r; [|destruct k].
  all: (eapply (vless_call s _ i p); [exact Hp|reflexivity|cbn -[vm]; unfold vm; cbn; lia|reflexivity]).
Qed.
Lemma return_less i k r s p : s_calls s !! i = Some p -> 0 < cw p -> vmeasure (return_ i k r s) < vmeasure s.
Proof.
  intros Hp Hw. eapply (vless_call s _ i p); [exact Hp|reflexivity|cbn -[vm]; unfold vm; cbn; lia|reflexivity].
Qed.

Lemma works_less P s l s' : reachable P s -> works l = true -> step P s l = Some s' -> vmeasure s' < vmeasure s.
Proof.
  intros Hr Hi Hs. assert (cinv (s_core s)) as V by (apply (a_inv P _ (reach_all P s Hr))). pose proof (waits_size P s Hr) as Hsz.
  destruct l; try done; cbn [step] in Hs.
  - (* LCore *) destruct (own l) eqn:Ho; [|done]. cbn [negb] in Hs. destruct (cstep P (s_core s) l) as [c'|] eqn:Hc; [|done].
    pose proof (works_core P _ l c' V Hi Hc) as Hm.
    assert (vmeasure (s <| s_core := c' |>) < vmeasure s) as Hb by (apply vless_same; [unfold am; cbn -[vm]; lia|done|done]).
    destruct l; try done; try (by injection Hs as <-).
    destruct (c_loop (s_core s)) as [|a| |] eqn:Hl; try (by injection Hs as <-).
    destruct (_ && _); [done|]. destruct a; try (by injection Hs as <-).
    + destruct (s_calls s !! c) as [[]|] eqn:Hp; try done. injection Hs as <-. eapply (vless_call s _ c _); [exact Hp|reflexivity| |reflexivity].
      cbn -[vm]. unfold vm in Hm |- *. cbn in Hm |- *. lia.
    + injection Hs as <-. apply vless; [unfold am; cbn -[vm]; lia|done|]. cbn -[wm Nat.mul]. pose proof (wm_wake (s_waits s)). lia.
  - (* LRecvStart *) destruct (s_calls s !! c) as [[]|] eqn:Hp; try done. cbn [cstep] in Hs. destruct (at_select _) eqn:Ha; [|done]. injection Hs as <-. apply at_select_top in Ha.
    eapply (vless_call s _ c _); [exact Hp|reflexivity| |reflexivity]. cbn -[vm].
    pose proof (vm_loop (s_core s) (set_loop (LDo (AStart c id f)) (s_core s)) eq_refl eq_refl eq_refl) as Hm. rewrite Ha in Hm. cbn in Hm. lia.
  - (* LStartCtx *) destruct (s_calls s !! c) as [[]|] eqn:Hp; try done. case_bool_decide; [|done]. injection Hs as <-. eapply return_less; [exact Hp|cbn; lia].
  - (* LCallDead *) destruct (t_dead _); [|done]. destruct (s_calls s !! c) as [[]|] eqn:Hp; try done; injection Hs as <-; (eapply return_less; [exact Hp|cbn; lia]).
  - (* LRecvStop *) destruct (s_calls s !! c) as [[]|] eqn:Hp; try done. cbn [cstep] in Hs. destruct (at_select _) eqn:Ha; [|done]. injection Hs as <-. apply at_select_top in Ha.
    eapply (vless_call s _ c _); [exact Hp|reflexivity| |reflexivity].
    match goal with |- vm ?c1 + _ < _ => pose proof (vm_loop (s_core s) c1 eq_refl eq_refl eq_refl) as Hm end. rewrite Ha in Hm. cbn in Hm |- *. lia.
  - (* LLock *) destruct (s_calls s !! c) as [[]|] eqn:Hp; try done. destruct (s_mu s); [done|]. destruct (get_worker _ _); injection Hs as <-.
    + eapply (vless_call s _ c _); [exact Hp|reflexivity| |reflexivity]. cbn -[vm]. unfold vm. cbn. lia.
    + apply vless; [|cbn; by rewrite (csize_upd _ _ _ _ Hp)|].
      * unfold am. cbn -[vm msum]. pose proof (csum_upd _ c _ (CSelect k id) Hp) as Hu. unfold csum in Hu. cbn -[msum] in Hu. lia.
      * cbn -[wm Nat.mul]. pose proof (wm_ins (s_waits s) c (mkWaiter id TLocked false None)) as Hw. cbn -[wm] in Hw. lia.
  - (* LCheck *) destruct (s_calls s !! c) as [[]|] eqn:Hp; try done. injection Hs as <-. destruct (t_dying _); [eapply return_less|eapply deliver_less]; try exact Hp; cbn; lia.
  - (* LWc *) destruct (s_calls s !! c) as [[]|] eqn:Hp; try done. destruct (s_waits s !! c) as [[? ? ? [r|]]|]; try done. injection Hs as <-. destruct r.
    + eapply (vless_call s _ c _); [exact Hp|reflexivity| |reflexivity]. cbn -[vm]. lia.
    + eapply deliver_less; [exact Hp|cbn; lia].
  - (* LWcCheck *) destruct (s_calls s !! c) as [[]|] eqn:Hp; try done. injection Hs as <-. destruct (t_dying _); (eapply return_less; [exact Hp|cbn; lia]).
  - (* LSelDying *) destruct (s_calls s !! c) as [[]|] eqn:Hp; try done. destruct (t_dying _); [|done]. injection Hs as <-. eapply return_less; [exact Hp|cbn; lia].
  - (* LSelAbort *) destruct (s_calls s !! c) as [[]|] eqn:Hp; try done. destruct (negb _); [done|]. injection Hs as <-.
    apply vless; [|cbn; by rewrite (csize_upd _ _ _ _ Hp)|].
    + unfold am. cbn -[msum]. pose proof (csum_upd _ c _ CRet Hp) as Hu. unfold csum in Hu. cbn -[msum] in Hu. unfold vm. cbn -[msum]. lia.
    + cbn -[wm Nat.mul]. match goal with |- wm (wake <$> ?m) <= _ => pose proof (wm_wake m) as Hw; rewrite wm_alter in Hw; assert (size m = size (s_waits s)) as Hsm end.
      { rewrite <- !size_dom. f_equal. apply dom_alter_L. }
      lia.
  - (* LStopKill *) destruct (s_calls s !! c) as [[]|] eqn:Hp; try done. injection Hs as <-. eapply (vless_call s _ c _); [exact Hp|reflexivity| |reflexivity]. cbn -[vm]. unfold vm. cbn. lia.
  - (* LStopWaited *) destruct (s_calls s !! c) as [[]|] eqn:Hp; try done. destruct (c_ended _ !! _); [|done]. injection Hs as <-. eapply (vless_call s _ c _); [exact Hp|reflexivity| |reflexivity]. cbn -[vm]. lia.
  - (* LDoneAbort *) destruct (s_calls s !! c) as [[]|] eqn:Hp; try done. case_bool_decide; [|done]. injection Hs as <-. eapply return_less; [exact Hp|cbn; lia].
  - (* LDoneRecv *) destruct (s_calls s !! c) as [[]|] eqn:Hp; try done. cbn [cstep] in Hs. case_bool_decide; [|done]. injection Hs as <-.
    eapply (vless_call s _ c _); [exact Hp|reflexivity| |reflexivity]. cbn -[vm]. unfold vm. cbn. lia.
  - (* LWtCheck *) destruct (s_waits s !! c) as [[id [] [] ch]|] eqn:Ht; try done; injection Hs as <-; (eapply vless_wait; [done|done|exact Ht|done|]); cbn; lia.
  - (* LWtAdd *) destruct (s_waits s !! c) as [[id [] st ch]|] eqn:Ht; try done; injection Hs as <-; (eapply vless_wait; [done|done|exact Ht|done|]); cbn; lia.
  - (* LWtWake *) destruct (s_waits s !! c) as [[id [] st ch]|] eqn:Ht; try done. destruct (s_mu s); [done|].
    destruct (get_worker _ _); injection Hs as <-; (eapply vless_wait; [done|done|exact Ht|done|]); cbn; lia.
Qed.

Lemma work_finite P s ls s' : reachable P s -> run P s ls = Some s' -> (forall l, l ∈ ls -> works l = true) -> length ls <= vmeasure s.
Proof.
  revert s. induction ls as [|l ls IH]; intros s Hr Hrun Hq; [cbn; lia|]. cbn [run length] in *. destruct (step P s l) as [s1|] eqn:Hs; [|done].
  pose proof (works_less P s l s1 Hr (Hq l (elem_of_list_here _ _)) Hs) as Hm.
  assert (length ls <= vmeasure s1); [|lia]. apply IH; [by eapply reach_step|done|]. intros l' Hl'. apply Hq. by right.
Qed.

(** ** Finding a step *)
Definition candidates (s : state) : list label :=
  [LCore KDying; LCore KAct; LCore KReturn] ++
  (elements (dom (c_gors (s_core s))) ≫= fun g => [LCore (KRecvStarted g); LCore (KRecvDone g); LCore (KBegin g); LCore (KFire g); LCore (KDelayAbort g); LCore (KExit g)]) ++
  (elements (dom (s_calls s)) ≫= fun i => [LRecvStart i; LStartCtx i; LCallDead i; LRecvStop i; LLock i; LCheck i; LWc i; LWcCheck i; LSelDying i; LSelAbort i; LStopKill i; LStopWaited i; LDoneAbort i; LDoneRecv i]) ++
  (elements (dom (s_waits s)) ≫= fun i => [LWtCheck i; LWtAdd i; LWtWake i]).
Lemma candidates_all P s l : works l = true -> is_Some (step P s l) -> l ∈ candidates s.
Proof.
  intros Hw [s' Hs]. unfold candidates. rewrite !elem_of_app, !elem_of_list_bind. setoid_rewrite elem_of_elements. setoid_rewrite elem_of_dom.
  destruct l; try done; cbn [step] in Hs.
  - destruct l; try done; cbn [own negb cstep] in Hs; try (left; set_solver); right; left; (destruct (c_gors (s_core s) !! g) as [r|] eqn:Hg; [|done]); exists g; (split; [set_solver|eauto]).
  - right; right; left. exists c. split; [set_solver|]. destruct (s_calls s !! c); [eauto|done].
  - right; right; left. exists c. split; [set_solver|]. destruct (s_calls s !! c); [eauto|done].
  - right; right; left. exists c. split; [set_solver|]. destruct (s_calls s !! c); [eauto|by destruct (t_dead _)].
  - right; right; left. exists c. split; [set_solver|]. destruct (s_calls s !! c); [eauto|done].
  - right; right; left. exists c. split; [set_solver|]. destruct (s_calls s !! c); [eauto|done].
  - right; right; left. exists c. split; [set_solver|]. destruct (s_calls s !! c); [eauto|done].
  - right; right; left. exists c. split; [set_solver|]. destruct (s_calls s !! c); [eauto|done].
  - right; right; left. exists c. split; [set_solver|]. destruct (s_calls s !! c); [eauto|done].
  - right; right; left. exists c. split; [set_solver|]. destruct (s_calls s !! c); [eauto|done].
  - right; right; left. exists c. split; [set_solver|]. destruct (s_calls s !! c); [eauto|done].
  - right; right; left. exists c. split; [set_solver|]. destruct (s_calls s !! c); [eauto|done].
  - right; right; left. exists c. split; [set_solver|]. destruct (s_calls s !! c); [eauto|done].
  - right; right; left. exists c. split; [set_solver|]. destruct (s_calls s !! c); [eauto|done].
  - right; right; left. exists c. split; [set_solver|]. destruct (s_calls s !! c); [eauto|done].
  - right; right; right. exists c. split; [set_solver|]. destruct (s_waits s !! c); [eauto|done].
  - right; right; right. exists c. split; [set_solver|]. destruct (s_waits s !! c); [eauto|done].
  - right; right; right. exists c. split; [set_solver|]. destruct (s_waits s !! c); [eauto|done].
Qed.
Lemma rest_or_step P s : at_rest P s \/ exists l s', works l = true /\ step P s l = Some s'.
Proof.
  assert (forall ls : list label, (forall l, l ∈ ls -> works l = true -> step P s l = None) \/ exists l s', works l = true /\ step P s l = Some s') as H.
  { induction ls as [|l ls [IH|IH]]; [left; intros l Hl; by apply elem_of_nil in Hl| |by right].
    destruct (works l) eqn:Hw, (step P s l) as [s'|] eqn:Hs; try (left; intros l' [->|Hl']%elem_of_cons Hw'; [congruence|by apply IH]). right. eauto. }
  destruct (H (candidates s)) as [Hn|?]; [|by right]. left. intros l Hw. destruct (step P s l) as [s'|] eqn:Hs; [|done].
  rewrite <- Hs. apply Hn; [|done]. eapply candidates_all; [done|by rewrite Hs].
Qed.
Lemma work_settles P s : reachable P s -> exists ls s', (forall l, l ∈ ls -> works l = true) /\ run P s ls = Some s' /\ at_rest P s'.
Proof.
  remember (vmeasure s) as n eqn:Hn. revert s Hn. induction n as [n IH] using lt_wf_ind. intros s -> Hr.
  destruct (rest_or_step P s) as [H|(l & s1 & Hw & Hs)].
  - exists [], s. split_and!; [intros l Hl; by apply elem_of_nil in Hl|done|done].
  - destruct (IH (vmeasure s1) (works_less P s l s1 Hr Hw Hs) s1 eq_refl ltac:(by eapply reach_step)) as (ls & s' & H1 & H2 & H3).
    exists (l :: ls), s'. split_and!; [|cbn; by rewrite Hs|done]. intros l' [->|Hl']%elem_of_cons; [done|by apply H1].
Qed.

(** ** At rest *)
Lemma rest_idle P s : reachable P s -> at_rest P s -> idle s.
Proof.
  intros Hr Hn. pose proof (a_inv P _ (reach_all P s Hr)) as V. destruct (c_loop (s_core s)) eqn:Hl; [by left| | |by right].
  - destruct (busy_enabled P s Hr) as [[s' H]|(i & [[s' H]|[s' H]])]; [intros [?|?]; congruence|..]; rewrite Hn in H; done.
  - pose proof (ci_loop _ V) as Hlo. by rewrite Hl in Hlo.
Qed.
Lemma rest_loop P s : reachable P s -> at_rest P s -> at_select (s_core s) = true \/ EvDead ∈ rlog s \/ crashed P s.
Proof.
  intros Hr Hn. pose proof (reach_all P s Hr) as A. destruct (rest_idle P s Hr Hn) as [Hl|Hl].
  - left. destruct (finished (s_core s)) eqn:Hf; [|unfold at_select; by rewrite Hl, Hf].
    assert (step P s (LCore KReturn) = None) as H by (by apply Hn). cbn [step own negb cstep] in H. by rewrite Hl, Hf in H.
  - right. destruct (a_tomb P _ A) as (_ & _ & T3 & T4). destruct (T4 Hl) as [(H1 & _)|[(H1 & _)|(_ & _ & H)]]; [left; by apply T3|left; by apply T3|].
    right. split; [done|]. unfold rlog. rewrite <- (a_final P _ A). destruct H; eauto.
Qed.
Lemma call_pc P s i k : reachable P s -> EvC (CvCall i k) ∈ rlog s -> (exists p, s_calls s !! i = Some p /\ pc_ok (rlog s) i p) /\ (s_calls s !! i = Some CRet -> call_returned (rlog s) i k).
Proof.
  intros Hr Hc. destruct (called_some P s Hr _ _ Hc) as [p Hp]. pose proof (li_pc _ (reach_linv P s Hr) _ _ Hp) as Hok. split; [eauto|].
  intros Hp'. rewrite Hp in Hp'. injection Hp' as ->. destruct Hok as (k' & r & H1 & H2). rewrite (call_unique P s _ _ _ Hr Hc H1). by exists r.
Qed.
Lemma rest_start P s i id f : reachable P s -> at_rest P s -> EvC (CvCall i (KStart id f)) ∈ rlog s -> call_returned (rlog s) i (KStart id f) \/ crashed P s.
Proof.
  intros Hr Hn Hc. destruct (call_pc P s i _ Hr Hc) as ((p & Hp & Hok) & Hret). pose proof (rest_idle P s Hr Hn) as Hi.
  assert (forall k, EvC (CvCall i k) ∈ rlog s -> k = KStart id f) as Hk by (intros k Hk; exact (call_unique P s i _ _ Hr Hk Hc)).
  destruct p; cbn in Hok; try (destruct Hok as (Hok & _)); try (exfalso; apply Hk in Hok; try destruct k; discriminate).
  - destruct (rest_loop P s Hr Hn) as [Ha|[Hd|Hx]]; [| |by right].
    + assert (step P s (LRecvStart i) = None) as H by (by apply Hn). cbn [step cstep] in H. by rewrite Hp, Ha in H.
    + assert (step P s (LCallDead i) = None) as H by (by apply Hn). cbn [step] in H. destruct (a_tomb P _ (reach_all P s Hr)) as (_ & _ & T3 & _).
      rewrite (proj2 T3 Hd), Hp in H. done.
  - exfalso. destruct (li_reply s (reach_loopinv P s Hr) _ _ _ Hp) as [Hl|[r Hl]]; destruct Hi; congruence.
  - left. by apply Hret.
Qed.
Lemma rest_stop P s i id : reachable P s -> at_rest P s -> EvC (CvCall i (KStop id)) ∈ rlog s -> call_returned (rlog s) i (KStop id) \/ crashed P s.
Proof.
  intros Hr Hn Hc. destruct (call_pc P s i _ Hr Hc) as ((p & Hp & Hok) & Hret).
  assert (forall k, EvC (CvCall i k) ∈ rlog s -> k = KStop id) as Hk by (intros k Hk; exact (call_unique P s i _ _ Hr Hk Hc)).
  destruct p; cbn in Hok; try (destruct Hok as (Hok & _)); try (exfalso; apply Hk in Hok; try destruct k; discriminate).
  - destruct (rest_loop P s Hr Hn) as [Ha|[Hd|Hx]]; [| |by right].
    + assert (step P s (LRecvStop i) = None) as H by (by apply Hn). cbn [step cstep] in H. by rewrite Hp, Ha in H.
    + assert (step P s (LCallDead i) = None) as H by (by apply Hn). cbn [step] in H. destruct (a_tomb P _ (reach_all P s Hr)) as (_ & _ & T3 & _).
      rewrite (proj2 T3 Hd), Hp in H. done.
  - left. by apply Hret.
Qed.
Lemma mu_free P s : reachable P s -> at_rest P s -> s_mu s = None.
Proof.
  intros Hr Hn. destruct (s_mu s) as [j|] eqn:Hm; [|done]. destruct (mu_held s (reach_muinv P s Hr) _ Hm) as ([id p st ch] & Ht & Hp & _). cbn in Hp. destruct Hp as [-> | ->].
  - assert (step P s (LWtCheck j) = None) as H by (by apply Hn). cbn [step] in H. rewrite Ht in H. by destruct st.
  - assert (step P s (LWtAdd j) = None) as H by (by apply Hn). cbn [step] in H. by rewrite Ht in H.
Qed.
(** An entry that was added is there, or was removed. *)
Lemma known_or_removed P s id f d : reachable P s -> EvKnown id f d ∈ rlog s -> known (rlog s) id = Some (f, d) \/ EvRemoved id d ∈ rlog s.
Proof.
  intros Hr. pose proof (past P (fun ev post => match ev with EvKnown id _ _ => known post id = None | EvRemoved id d => exists f, known post id = Some (f, d) | _ => True end) s Hr) as Hp.
  assert (forall pre ev post, rlog s = pre ++ ev :: post -> match ev with EvKnown id _ _ => known post id = None | EvRemoved id d => exists f, known post id = Some (f, d) | _ => True end) as Hq.
  { apply Hp. clear. intros c a ev b A E. destruct ev; try done.
    - destruct E as (i & -> & _ & _ & Hn & _). pose proof (a_workers P c A id) as W. rewrite Hn in W. cbn. by destruct W as (W & _).
    - destruct E as (g & e & n & f & x & -> & _ & Hn & -> & _). pose proof (a_workers P c A id) as W. rewrite Hn in W. destruct W as ((f0 & Hk & _) & _). cbn. eauto. }
  clear Hp. assert (exists pre, rlog s = pre ++ rlog s) as Hsuf by (by exists []). revert Hsuf. generalize (rlog s) at 2 3 4 5 as l. induction l as [|ev l IH]; intros [pre Hl] Hin; [by apply elem_of_nil in Hin|].
  specialize (Hq _ _ _ Hl). apply elem_of_cons in Hin as [<-|Hin]; [left; cbn; by rewrite bool_decide_eq_true_2|].
  destruct (IH ltac:(exists (pre ++ [ev]); by rewrite <- app_assoc) Hin) as [H|H]; [|right; by right].
  destruct ev; cbn; try (by left).
  - case_bool_decide; [|by left]. subst. congruence.
  - case_bool_decide; [|by left]. subst. destruct Hq as [f0 Hq]. rewrite H in Hq. injection Hq as <- <-. right. by left.
Qed.
Lemma known_dec log id : known log id = None \/ known log id <> None.
Proof. destruct (known log id); auto. Qed.

(** Who took the signal of a removed entry. *)
Definition sigtaken (s : state) : Prop := forall id d, EvRemoved id d ∈ rlog s -> d ∈ c_signals (s_core s) \/
  exists j id' e g w, EvC (CvRet j (KStopRm id') (RRemoved e)) ∈ rlog s /\ EvC (CvLookup j id' (GWorker g w d)) ∈ rlog s.
Lemma sigtaken_trans P s s' : reachable P s -> sigtaken s -> strans P s s' -> sigtaken s'.
Proof.
  intros Hr V HT id d Hin.
  assert (rlog s ⊆ rlog s') as Hsub.
  { destruct (strans_emits P s s' HT) as [(evs & -> & _)|(ce & post & -> & (evs & -> & _) & _)]; intros x Hx; [|right]; apply elem_of_app; by right. }
  assert (EvRemoved id d ∈ rlog s -> c_signals (s_core s) ⊆ c_signals (s_core s') -> d ∈ c_signals (s_core s') \/
    exists j id' e g w, EvC (CvRet j (KStopRm id') (RRemoved e)) ∈ rlog s' /\ EvC (CvLookup j id' (GWorker g w d)) ∈ rlog s') as Hold.
  { intros Hi Hs. destruct (V id d Hi) as [Hd|(j & id' & e & g & w & H1 & H2)]; [left; by apply Hs|]. right. exists j, id', e, g, w. split; by apply Hsub. }
  pose proof (a_inv P _ (reach_all P s Hr)) as Vc.
  destruct HT; unfold return_, tell, rlog in *; cbn in *;
    try (apply Hold; [|done]; first [exact Hin|repeat (apply elem_of_cons in Hin as [Hin|Hin]; [discriminate Hin|]); exact Hin]).
  - pose proof (own_signals P _ _ _ H H0) as Hs. destruct (removed_signal P _ _ id d (cstep_trans P _ _ _ Vc H0) Hin) as [Hi|Hi]; [by apply Hold|by left].
  - apply Hold; [|by destruct k, r]. destruct k, r; cbn in Hin; try exact Hin; by apply elem_of_cons in Hin as [?|Hin].
  - apply elem_of_cons in Hin as [?|Hin]; [done|]. destruct (V id d Hin) as [Hd|(j & id' & e' & g & w & H1 & H2)].
    + destruct (decide (d = d0)) as [-> |]; [|left; set_solver]. right.
      pose proof (li_pc _ (reach_linv P s Hr) _ _ H) as (_ & g & w & Hlk & _). exists i, id0, e, g, w. split; [by left|right; exact Hlk].
    + right. exists j, id', e', g, w. split; by right.
Qed.
Lemma reach_sigtaken P s : reachable P s -> sigtaken s.
Proof.
  apply (reach_ind P sigtaken); [intros id d H; by apply elem_of_nil in H|]. intros s0 s1 Hr V _ HT. by eapply sigtaken_trans.
Qed.
Lemma lookup_known P s i id g w d : reachable P s -> EvC (CvLookup i id (GWorker g w d)) ∈ rlog s -> exists f, EvKnown id f d ∈ rlog s.
Proof.
  intros Hr Hl. destruct (elem_split _ _ Hl) as (p & q & E). destruct (lookup_result P s _ _ _ _ _ Hr E) as [((f & Hk) & _) _].
  exists f. rewrite E. apply elem_of_app. right. right. by apply known_in.
Qed.

Lemma rest_info P s i k id : reachable P s -> at_rest P s -> EvC (CvCall i (icall k id)) ∈ rlog s ->
  call_returned (rlog s) i (icall k id) \/
  (known (rlog s) id <> None /\ registered (rlog s) id = None /\ EvCtx i ∉ rlog s /\ EvKilled ∉ rlog s) \/
  (k = IStopRm /\ exists g w d, EvC (CvLookup i id (GWorker g w d)) ∈ rlog s /\ EvC (CvKill i g w) ∈ rlog s /\
    (~ worker_ended (rlog s) g \/
     (EvCtx i ∉ rlog s /\ ((exists f, known (rlog s) id = Some (f, d)) \/
        (EvRemoved id d ∈ rlog s /\ exists j e g' w', j <> i /\ EvC (CvRet j (KStopRm id) (RRemoved e)) ∈ rlog s /\ EvC (CvLookup j id (GWorker g' w' d)) ∈ rlog s))))).
Proof.
  intros Hr Hn Hc. destruct (call_pc P s i _ Hr Hc) as ((p & Hp & Hok) & Hret). pose proof (rest_idle P s Hr Hn) as Hi. pose proof (mu_free P s Hr Hn) as Hmu.
  assert (forall k', EvC (CvCall i k') ∈ rlog s -> k' = icall k id) as Hk by (intros k' Hk; exact (call_unique P s i _ _ Hr Hk Hc)).
  assert (forall k' id', EvC (CvCall i (icall k' id')) ∈ rlog s -> k' = k /\ id' = id) as Hk2 by (intros k' id' Hk'; apply Hk in Hk'; destruct k, k'; cbn in Hk'; try discriminate; by injection Hk' as ->).
  pose proof (fun H => proj1 (RunnerAnswers.ctx_log P s i Hr) H) as Hctx. pose proof (fun H => proj2 (RunnerAnswers.ctx_log P s i Hr) H) as Hctx'.
  destruct p; cbn in Hok.
  - apply Hk in Hok. by destruct k.
  - apply Hk in Hok. by destruct k.
  - apply Hk in Hok. by destruct k.
  - exfalso. assert (step P s (LLock i) = None) as H by (by apply Hn). cbn [step] in H. rewrite Hp, Hmu in H. by destruct (get_worker _ _).
  - exfalso. assert (step P s (LCheck i) = None) as H by (by apply Hn). cbn [step] in H. by rewrite Hp in H.
  - apply Hk2 in Hok as [-> ->]. right. left.
    destruct (caller_blocked P s i k id Hr Hi Hp) as [H1 H2]. { intros l Hl. apply Hn. by destruct l. }
    split_and!; [done|done| |].
    + intros Hx%Hctx'. assert (step P s (LSelAbort i) = None) as H by (by apply Hn). cbn [step] in H. rewrite Hp, bool_decide_eq_true_2 in H by done. done.
    + intros Hx. assert (step P s (LSelDying i) = None) as H by (by apply Hn). cbn [step] in H. destruct (a_tomb P _ (reach_all P s Hr)) as (T1 & _). by rewrite Hp, (T1 Hx) in H.
  - exfalso. assert (step P s (LWcCheck i) = None) as H by (by apply Hn). cbn [step] in H. by rewrite Hp in H.
  - exfalso. assert (step P s (LStopKill i) = None) as H by (by apply Hn). cbn [step] in H. by rewrite Hp in H.
  - destruct Hok as (Hok & w & Hlk & Hkl). destruct (Hk2 IStopRm _ Hok) as [<- ->]. right. right. split; [done|]. exists g, w, d. split_and!; [done|done|]. left.
    intros (id' & e & He). apply (gl_ended' _ (a_gor P _ (reach_all P s Hr))) in He. assert (step P s (LStopWaited i) = None) as H by (by apply Hn). cbn [step] in H. by rewrite Hp, He in H.
  - destruct Hok as (Hok & g & w & Hlk & Hkl & Hen). destruct (Hk2 IStopRm _ Hok) as [<- ->]. right. right. split; [done|]. exists g, w, d. split_and!; [done|done|]. right. split.
    + intros Hx%Hctx'. assert (step P s (LDoneAbort i) = None) as H by (by apply Hn). cbn [step] in H. rewrite Hp, bool_decide_eq_true_2 in H by done. done.
    + destruct (lookup_known P s i id g w d Hr Hlk) as [f Hf]. destruct (known_or_removed P s id f d Hr Hf) as [H|H]; [left; eauto|]. right. split; [done|].
      destruct (reach_sigtaken P s Hr id d H) as [Hd|(j & id' & e' & g' & w' & H1 & H2)].
      * exfalso. assert (step P s (LDoneRecv i) = None) as Hx by (by apply Hn). cbn [step cstep] in Hx. rewrite Hp, bool_decide_eq_true_2 in Hx by done. done.
      * assert (id' = id) as ->. { destruct (lookup_known P s j id' g' w' d Hr H2) as [f' Hf']. by destruct (known_unique P s _ _ _ _ _ Hr Hf Hf'). }
        exists j, e', g', w'. split_and!; [|done|done]. intros ->. apply (li_returned _ (reach_linv P s Hr)) in H1. congruence.
  - left. by apply Hret.
Qed.

(** The goroutines. *)
Lemma rest_gor P s ls g id f x p : run P init ls = Some s -> (forall g, LCore (KLost g) ∉ ls) -> at_rest P s -> c_gors (s_core s) !! g = Some (mkWGor id f x p) ->
  p = WStart \/ (exists w, p = WWait w /\ c_ended (s_core s) !! g = None) \/ (exists r, p = WTimer r /\ (c_now (s_core s) < r)%Z /\ EvKilled ∉ rlog s) \/ p = WGone.
Proof.
  intros Hrun Hnl Hn Hg. assert (reachable P s) as Hr by (by exists ls). pose proof (reach_all P s Hr) as A. pose proof (a_inv P _ A) as V.
  assert (no_lost (s_core s)) as Hno. { eapply run_no_lost; [|done|done]. intros g' r Hg'. cbn in Hg'. by rewrite lookup_empty in Hg'. }
  assert (forall l c', works (LCore l) = true -> l <> KAct -> cstep P (s_core s) l = Some c' -> own l = true -> False) as Hen.
  { intros l c' Ho Hne Hc Hown. apply Hn in Ho. cbn [step] in Ho. rewrite Hown, Hc in Ho. cbn [negb] in Ho. destruct l; done. }
  assert (p <> WGone -> at_select (s_core s) = true) as Hsel.
  { intros Hp. destruct (rest_loop P s Hr Hn) as [H|[H|[H _]]]; [done| |].
    - destruct (dead_complete P s Hr H) as (_ & _ & Hd & _). by apply Hd in Hg.
    - pose proof (ci_loop _ V) as Hlo. rewrite H in Hlo. destruct Hlo as [_ Hw]. destruct (proj2 (ci_act _ V id)) as [i Hx]; [eexists g, _; split_and!; [exact Hg|done|done]|]. by rewrite Hw, lookup_empty in Hx. }
  destruct p; auto.
  - exfalso. assert (exists c', cstep P (s_core s) (KBegin g) = Some c') as [c' Hc]; [|by apply (Hen _ c') in Hc]. cbn [cstep]. rewrite Hg. destruct (_ <? _)%Z; eauto.
  - right. right. left. exists ready. split_and!; [done| |].
    + destruct (decide (c_now (s_core s) < ready)%Z) as [|Hlt]; [done|]. exfalso.
      eapply (Hen (KFire g)); try done. cbn [cstep]. rewrite Hg. by rewrite (proj2 (Z.leb_le _ _)) by lia.
    + intros Hk. destruct (a_tomb P _ A) as (T1 & _). apply T1 in Hk. eapply (Hen (KDelayAbort g)); try done. cbn [cstep]. by rewrite Hg, Hk.
  - assert (at_select (s_core s) = true) as Hs by (by apply Hsel). exfalso. eapply (Hen (KRecvStarted g)); try done. cbn [cstep]. by rewrite Hg, Hs.
  - right. left. exists w. split; [done|]. destruct (c_ended (s_core s) !! g) as [e|] eqn:He; [|done]. exfalso. eapply (Hen (KExit g)); try done. cbn [cstep]. by rewrite Hg, He.
  - assert (at_select (s_core s) = true) as Hs by (by apply Hsel). exfalso. eapply (Hen (KRecvDone g)); try done. cbn [cstep]. by rewrite Hg, Hs.
  - pose proof (ci_take _ V _ _ _ Hg eq_refl) as Hl. destruct (rest_idle P s Hr Hn); congruence.
  - by destruct (Hno _ _ Hg).
Qed.

Lemma rest_known P s ls id : run P init ls = Some s -> (forall g, LCore (KLost g) ∉ ls) -> at_rest P s -> known (rlog s) id <> None ->
  exists g, in_charge (rlog s) id = Some g /\
    ((start_called (rlog s) g /\ (forall r, EvStartRet g id r ∉ rlog s)) \/
     (exists w, EvSet g id w ∈ rlog s /\ ~ worker_ended (rlog s) g /\
        (registered (rlog s) id = Some (g, w) \/ EvKill g id w ∈ rlog s)) \/
     (~ start_called (rlog s) g /\ delayed s g /\ EvKilled ∉ rlog s)).
Proof.
  intros Hrun Hnl Hn Hk. assert (reachable P s) as Hr by (by exists ls). pose proof (reach_all P s Hr) as A. pose proof (a_inv P _ A) as V. pose proof (rest_idle P s Hr Hn) as Hi.
  destruct (c_workers (s_core s) !! id) as [n|] eqn:Hid. 2:{ pose proof (a_workers P _ A id) as W. rewrite Hid in W. by destruct W as (W & _). }
  destruct (proj1 (ci_act _ V id) ltac:(eauto)) as (g & [id' f x p] & Hg & Hid' & Hp). cbn in Hid', Hp. subst id'.
  exists g. split. { apply (a_charge P _ A). eexists. split_and!; [exact Hg|done|done]. }
  pose proof (gl_ok _ (a_gor P _ A) _ _ _ _ _ Hg) as Hok.
  destruct (rest_gor P s ls g id f x p Hrun Hnl Hn Hg) as [-> |[(w & -> & He)|[(r & -> & Hlt & Hk')| ->]]]; [| | |done].
  - left. cbn in Hok. destruct Hok as ((t & Hc) & Hret & _). split; [by exists id, f, t|]. intros r Hx. apply Hret. by exists id, r.
  - right. left. exists w. destruct (creach_ws P _ (reach_core P s Hr) _ _ _ _ _ Hg) as [?|Hset]; [destruct Hi; congruence|].
    assert (~ worker_ended (rlog s) g) as Hne. { intros (id1 & e1 & Hend). apply (gl_ended' _ (a_gor P _ A)) in Hend. congruence. }
    split_and!; [done|done|]. destruct (gl_live _ (a_gor P _ A) g id w _ n Hset Hg Hp Hid) as [Hw|Hw]; [left|by right].
    pose proof (a_workers P _ A id) as W. rewrite Hid in W. destruct W as (_ & W & _). unfold rlog. by rewrite W.
  - right. right. cbn in Hok. destruct Hok as (_ & Hns & _). split_and!; [done| |done]. eexists _, r. split_and!; [exact Hg|done|done].
Qed.

(** What has ended has been dealt with. *)
Lemma rest_ended P s ls g id e : run P init ls = Some s -> (forall g, LCore (KLost g) ∉ ls) -> at_rest P s -> EvEnd g id e ∈ rlog s ->
  exists t, EvDone g id e t ∈ rlog s.
Proof.
  intros Hrun Hnl Hn He. assert (reachable P s) as Hr by (by exists ls). pose proof (reach_all P s Hr) as A.
  destruct (elem_split _ _ He) as (p1 & q1 & E). destruct (end_once P s _ _ _ _ _ Hr E) as [(w & Hw) _].
  assert (EvStartRet g id (inl w) ∈ rlog s) as Hret by (rewrite E; set_solver).
  destruct (gl_about _ (a_gor P _ A) _ g id He eq_refl) as ([id' f x p] & Hg & Hid). cbn in Hid. subst id'.
  pose proof (gl_ok _ (a_gor P _ A) _ _ _ _ _ Hg) as Hok. pose proof (gl_ended' _ (a_gor P _ A) _ _ _ He) as Hen.
  destruct (rest_gor P s ls g id f x p Hrun Hnl Hn Hg) as [-> |[(w' & -> & He')|[(r & -> & Hlt & Hk')| ->]]]; cbn in Hok.
  - destruct Hok as (_ & Hx & _). destruct Hx. by exists id, (inl w).
  - congruence.
  - destruct Hok as (_ & _ & Hx & _). destruct Hx. by exists id, (inl w).
  - destruct Hok as (e' & t & Hd & [(Hns & _)|[(y & -> & Hy)|Hy]]).
    + destruct Hns. by eapply ret_called.
    + destruct (ret_unique P s _ _ _ _ _ Hr Hret Hy) as [_ [=]].
    + exists t. apply (gl_ended' _ (a_gor P _ A)) in Hy. rewrite Hen in Hy. by injection Hy as <-.
Qed.
Lemma rest_failed P s ls g id y : run P init ls = Some s -> (forall g, LCore (KLost g) ∉ ls) -> at_rest P s -> EvStartRet g id (inr y) ∈ rlog s ->
  exists t, EvDone g id (Some y) t ∈ rlog s.
Proof.
  intros Hrun Hnl Hn Hret. assert (reachable P s) as Hr by (by exists ls). pose proof (reach_all P s Hr) as A.
  destruct (gl_about _ (a_gor P _ A) _ g id Hret eq_refl) as ([id' f x p] & Hg & Hid). cbn in Hid. subst id'.
  pose proof (gl_ok _ (a_gor P _ A) _ _ _ _ _ Hg) as Hok.
  destruct (rest_gor P s ls g id f x p Hrun Hnl Hn Hg) as [-> |[(w' & -> & He')|[(r & -> & Hlt & Hk')| ->]]]; cbn in Hok.
  - destruct Hok as (_ & Hx & _). destruct Hx. by exists id, (inr y).
  - destruct (ret_unique P s _ _ _ _ _ Hr Hret Hok) as [_ [=]].
  - destruct Hok as (_ & _ & Hx & _). destruct Hx. by exists id, (inr y).
  - destruct Hok as (e' & t & Hd & [(Hns & _)|[(y' & -> & Hy)|Hy]]).
    + destruct Hns. by eapply ret_called.
    + destruct (ret_unique P s _ _ _ _ _ Hr Hret Hy) as [_ Heq]. injection Heq as <-. eauto.
    + change (EvEnd g id e' ∈ rlog s) in Hy. destruct (elem_split _ _ Hy) as (p1 & q1 & E). destruct (end_once P s _ _ _ _ _ Hr E) as [(w & Hw) _].
      assert (EvStartRet g id (inl w) ∈ rlog s) as Hret2 by (rewrite E; set_solver). destruct (ret_unique P s _ _ _ _ _ Hr Hret Hret2) as [_ [=]].
Qed.
(** A worker whose start func returned one has been recorded, or has ended. *)
Lemma rest_recorded P s ls g id w : run P init ls = Some s -> (forall g, LCore (KLost g) ∉ ls) -> at_rest P s -> EvStartRet g id (inl w) ∈ rlog s ->
  worker_ended (rlog s) g \/ (EvSet g id w ∈ rlog s /\ in_charge (rlog s) id = Some g /\ known (rlog s) id <> None).
Proof.
  intros Hrun Hnl Hn Hret. assert (reachable P s) as Hr by (by exists ls). pose proof (reach_all P s Hr) as A. pose proof (rest_idle P s Hr Hn) as Hi.
  destruct (gl_about _ (a_gor P _ A) _ g id Hret eq_refl) as ([id' f x p] & Hg & Hid). cbn in Hid. subst id'.
  pose proof (gl_ok _ (a_gor P _ A) _ _ _ _ _ Hg) as Hok.
  destruct (rest_gor P s ls g id f x p Hrun Hnl Hn Hg) as [-> |[(w' & -> & He')|[(r & -> & Hlt & Hk')| ->]]]; cbn in Hok.
  - destruct Hok as (_ & Hx & _). destruct Hx. by exists id, (inl w).
  - right. destruct (ret_unique P s _ _ _ _ _ Hr Hret Hok) as [_ Heq]. injection Heq as <-.
    destruct (creach_ws P _ (reach_core P s Hr) _ _ _ _ _ Hg) as [?|Hset]; [destruct Hi; congruence|]. split_and!; [done| |].
    + apply (a_charge P _ A). eexists. split_and!; [exact Hg|done|done].
    + destruct (proj2 (ci_act _ (a_inv P _ A) id)) as [n Hx]; [eexists g, _; split_and!; [exact Hg|done|done]|].
      pose proof (a_workers P _ A id) as W. rewrite Hx in W. destruct W as ((f0 & W & _) & _). unfold rlog. by rewrite W.
  - destruct Hok as (_ & _ & Hx & _). destruct Hx. by exists id, (inl w).
  - left. by eapply gone_ended.
Qed.
(** A goroutine that was created has called the start func, is in its delay, or was told to give up. *)
Lemma rest_spawned P s ls g id f d t : run P init ls = Some s -> (forall g, LCore (KLost g) ∉ ls) -> at_rest P s -> EvSpawn g id f d t ∈ rlog s ->
  (exists t', EvStartCall g id f t' ∈ rlog s) \/ delayed s g \/ (EvKilled ∈ rlog s /\ exists t', EvDone g id None t' ∈ rlog s).
Proof.
  intros Hrun Hnl Hn Hsp. assert (reachable P s) as Hr by (by exists ls). pose proof (reach_all P s Hr) as A.
  destruct (gl_fn _ (a_gor P _ A) _ _ _ _ _ Hsp) as (x & p & Hg).
  pose proof (gl_ok _ (a_gor P _ A) _ _ _ _ _ Hg) as Hok.
  assert (forall id' r, EvStartRet g id' r ∈ rlog s -> exists t', EvStartCall g id f t' ∈ rlog s) as Hret.
  { intros id' r Hx. destruct (ret_called P s _ _ _ Hr Hx) as (id2 & f2 & t2 & Hc). exists t2.
    destruct (gl_about _ (a_gor P _ A) _ g id2 Hc eq_refl) as (r2 & Hg2 & <-). rewrite Hg in Hg2. injection Hg2 as <-.
    cbn in Hc. destruct (elem_split _ _ Hc) as (p1 & q1 & E). destruct (start_delay P s _ _ _ _ _ _ Hr E) as (d0 & t0 & Hs0 & _).
    assert (EvSpawn g id f2 d0 t0 ∈ rlog s) as Hs1 by (rewrite E; set_solver). pose proof (spawn_unique P s _ _ _ _ _ _ _ _ _ Hr Hsp Hs1) as Heq. injection Heq as -> -> ->. done. }
  destruct (rest_gor P s ls g id f x p Hrun Hnl Hn Hg) as [-> |[(w' & -> & He')|[(r & -> & Hlt & Hk')| ->]]]; cbn in Hok.
  - left. destruct Hok as [H _]. exact H.
  - left. by eapply Hret.
  - right. left. eexists _, r. split_and!; [exact Hg|done|done].
  - destruct Hok as (e' & t' & Hd & [(Hns & -> & Hk & _)|[(y' & -> & Hy)|Hy]]).
    + right. right. split; [done|eauto].
    + left. by eapply Hret.
    + change (EvEnd g id e' ∈ rlog s) in Hy. destruct (elem_split _ _ Hy) as (p1 & q1 & E). destruct (end_once P s _ _ _ _ _ Hr E) as [(w & Hw) _].
      left. apply (Hret id (inl w)). rewrite E. set_solver.
Qed.

(** For the examples: a computable test. *)
Definition rest_check (P : rcfg) (s : state) : bool := forallb (fun l => match step P s l with None => true | Some _ => false end) (candidates s).
Lemma rest_check_ok P s : rest_check P s = true -> at_rest P s.
Proof.
  intros H l Hw. destruct (step P s l) as [s'|] eqn:Hs; [|done]. exfalso. unfold rest_check in H. rewrite forallb_forall in H.
  specialize (H l). rewrite Hs in H. discriminate H. apply elem_of_list_In. eapply candidates_all; [done|by rewrite Hs].
Qed.
Lemma work_bounded P s : reachable P s -> exists n, forall ls s', run P s ls = Some s' -> (forall l, l ∈ ls -> works l = true) -> length ls <= n.
Proof. intros Hr. exists (vmeasure s). intros ls s'. by apply work_finite. Qed.
Lemma rest_worker P s i id : reachable P s -> at_rest P s -> EvC (CvCall i (KWorker id)) ∈ rlog s ->
  call_returned (rlog s) i (KWorker id) \/ (known (rlog s) id <> None /\ registered (rlog s) id = None /\ EvCtx i ∉ rlog s /\ EvKilled ∉ rlog s).
Proof. intros Hr Hn Hc. destruct (rest_info P s i IWorker id Hr Hn Hc) as [H|[H|[H _]]]; [auto|auto|done]. Qed.
Lemma rest_stoprm P s i id : reachable P s -> at_rest P s -> EvC (CvCall i (KStopRm id)) ∈ rlog s ->
  call_returned (rlog s) i (KStopRm id) \/
  (known (rlog s) id <> None /\ registered (rlog s) id = None /\ EvCtx i ∉ rlog s /\ EvKilled ∉ rlog s) \/
  exists g w d, EvC (CvLookup i id (GWorker g w d)) ∈ rlog s /\ EvC (CvKill i g w) ∈ rlog s /\
    (~ worker_ended (rlog s) g \/
     (EvCtx i ∉ rlog s /\ ((exists f, known (rlog s) id = Some (f, d)) \/
        (EvRemoved id d ∈ rlog s /\ exists j e g' w', j <> i /\ EvC (CvRet j (KStopRm id) (RRemoved e)) ∈ rlog s /\ EvC (CvLookup j id (GWorker g' w' d)) ∈ rlog s)))).
Proof. intros Hr Hn Hc. destruct (rest_info P s i IStopRm id Hr Hn Hc) as [H|[H|[_ H]]]; auto. Qed.
