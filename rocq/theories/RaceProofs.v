(** Programs that respect permissions have no data races. *)
From stdpp Require Import gmap strings list relations.
From Coq Require Import Lia.
From RecordUpdate Require Import RecordSet.
From Verif Require Import Race RaceSpec.
Import RecordSetNotations.

(** ** Permissions *)
Inductive token := TSt (n : nat) | TMu (m : nat) | TObj (o : nat).
#[global] Instance token_eq_dec : EqDecision token.
Proof. solve_decision. Defined.
#[global] Instance token_countable : Countable token.
Proof.
  refine (inj_countable' (fun k => match k with TSt n => inl n | TMu n => inr (inl n) | TObj n => inr (inr n) end : nat + (nat + nat))
    (fun x => match x with inl n => TSt n | inr (inl n) => TMu n | inr (inr n) => TObj n end) _).
  by intros [].
Qed.
Notation perms := (gset token).

Section perm.
(** [grd l]: to write l, hold all of them; to read l, hold one; no guard: no promise. [pay c]: what is given up for ever when c is closed. *)
Variable grd : loc -> perms.
Variable pay : nat -> perms.

(** [T]: held; [F]: known to be given up by everybody for ever. *)
Inductive ty : perms -> perms -> list cmd -> perms -> perms -> Prop :=
  | ty_nil T F : ty T F [] T F
  | ty_rd T F l p T' F' k : k ∈ grd l -> k ∈ T \/ k ∈ F -> ty T F p T' F' -> ty T F (Rd l :: p) T' F'
  | ty_rd_any T F l p T' F' : grd l = ∅ -> ty T F p T' F' -> ty T F (Rd l :: p) T' F'
  | ty_wr T F l p T' F' : grd l ⊆ T -> ty T F p T' F' -> ty T F (Wr l :: p) T' F'
  | ty_lock T F m p T' F' : ty ({[TMu m]} ∪ T) F p T' F' -> ty T F (Lock m :: p) T' F'
  | ty_unlock T F m p T' F' : TMu m ∈ T -> ty (T ∖ {[TMu m]}) F p T' F' -> ty T F (Unlock m :: p) T' F'
  | ty_close T F c p T' F' : pay c ⊆ T -> ty (T ∖ pay c) (pay c ∪ F) p T' F' -> ty T F (Close c :: p) T' F'
  | ty_closed T F c p T' F' : ty T (pay c ∪ F) p T' F' -> ty T F (Closed c :: p) T' F'
  | ty_open T F c p T' F' : ty T F p T' F' -> ty T F (Open c :: p) T' F'
  | ty_send T F c p T' F' : ty T F p T' F' -> ty T F (Send c :: p) T' F'
  | ty_recv T F c p T' F' : ty T F p T' F' -> ty T F (Recv c :: p) T' F'
  | ty_go T F q p T' F' Tc Tq Fq : Tc ⊆ T -> ty Tc F q Tq Fq -> ty (T ∖ Tc) F p T' F' -> ty T F (Go q :: p) T' F'
  | ty_choose T F ps p T' F' T1 F1 : (forall q, q ∈ ps -> ty T F q T1 F1) -> ty T1 F1 p T' F' -> ty T F (Choose ps :: p) T' F'
  | ty_many T F q p T' F' : ty T F q T F -> ty T F p T' F' -> ty T F (Many q :: p) T' F'
  | ty_new T F f p T' F' T1 F1 : (forall o, ty ({[TObj o]} ∪ T) F (f o) T1 F1) -> ty T1 F1 p T' F' -> ty T F (New f :: p) T' F'
  | ty_ghost T F p T' F' T1 F1 K : T1 ∪ K ⊆ T -> T1 ## K -> F1 ⊆ F ∪ K -> ty T1 F1 p T' F' -> ty T F p T' F'.

Lemma ty_app T F p T1 F1 q T2 F2 : ty T F p T1 F1 -> ty T1 F1 q T2 F2 -> ty T F (p ++ q) T2 F2.
Proof.
  intros H Hq. induction H; cbn [app]; eauto using ty.
Qed.

(** What the next command of a goroutine needs, after giving up permissions. *)
Definition head (T F : perms) (c : cmd) (p : list cmd) (T' F' : perms) : Prop :=
  match c with
  | Rd l => (grd l = ∅ \/ exists k, k ∈ grd l /\ (k ∈ T \/ k ∈ F)) /\ ty T F p T' F'
  | Wr l => grd l ⊆ T /\ ty T F p T' F'
  | Lock m => ty ({[TMu m]} ∪ T) F p T' F'
  | Unlock m => TMu m ∈ T /\ ty (T ∖ {[TMu m]}) F p T' F'
  | Close c => pay c ⊆ T /\ ty (T ∖ pay c) (pay c ∪ F) p T' F'
  | Closed c => ty T (pay c ∪ F) p T' F'
  | Open _ | Send _ | Recv _ => ty T F p T' F'
  | Go q => exists Tc Tq Fq, Tc ⊆ T /\ ty Tc F q Tq Fq /\ ty (T ∖ Tc) F p T' F'
  | Choose ps => forall q, q ∈ ps -> ty T F (q ++ p) T' F'
  | Many q => ty T F p T' F' /\ ty T F (q ++ Many q :: p) T' F'
  | New f => forall o, ty ({[TObj o]} ∪ T) F (f o ++ p) T' F'
  end.
Lemma ty_head T F c p T' F' : ty T F (c :: p) T' F' ->
  exists T1 F1 K, T1 ∪ K ⊆ T /\ T1 ## K /\ F1 ⊆ F ∪ K /\ ty T1 F1 (c :: p) T' F' /\ head T1 F1 c p T' F'.
Proof.
  remember (c :: p) as cp eqn:Hcp. intros H. induction H; try discriminate;
    try (injection Hcp as <- <-; exists T, F, ∅; split; [set_solver|split; [set_solver|split; [set_solver|split; [by econstructor|]]]]; cbn [head]).
  - split; [|done]. right. by exists k.
  - split; [by left|done].
  - split_and!; assumption.
  - assumption.
  - split_and!; assumption.
  - split_and!; assumption.
  - assumption.
  - assumption.
  - assumption.
  - assumption.
  - by exists Tc, Tq, Fq.
  - intros q0 Hq0. eapply ty_app; [by apply H|done].
  - split; [done|]. eapply ty_app; [done|]. by apply ty_many.
  - intros o. eapply ty_app; [apply H|done].
  - destruct (IHty Hcp) as (T2 & F2 & K2 & G2 & G3 & G4 & G5). exists T2, F2, (K ∪ K2).
    split; [set_solver|]. split; [set_solver|]. split; [set_solver|done].
Qed.

(** ** Happens-before *)
Lemma lookup_old {A} (l : list A) x i y : l !! i = Some y -> (l ++ [x]) !! i = Some y.
Proof. intros H. by apply lookup_app_l_Some. Qed.
Lemma lookup_snoc_inv {A} (l : list A) x i y : (l ++ [x]) !! i = Some y -> l !! i = Some y \/ (i = length l /\ y = x).
Proof.
  intros H. apply lookup_app_Some in H as [H|[H1 H2]]; [by left|right].
  destruct (i - length l) as [|k] eqn:Hk; [|by rewrite lookup_cons_ne_0 in H2].
  cbn in H2. injection H2 as ->. split; [lia|done].
Qed.
Lemma edge_old tr x i j : edge tr i j -> edge (tr ++ [x]) i j.
Proof. intros (Hij & e & e' & He & He' & H). split; [done|]. exists e, e'. split; [by apply lookup_old|]. split; [by apply lookup_old|done]. Qed.
Lemma hb_old tr x i j : hb tr i j -> hb (tr ++ [x]) i j.
Proof.
  unfold hb. intros H. induction H as [i j H|i j k H _ IH].
  - apply tc_once. by apply edge_old.
  - eapply tc_l; [by apply edge_old|done].
Qed.

(** Whatever goroutine [t] does next happens after event [i]; the same for a locker of [m], and a receiver from [c]. *)
Definition here (i i' : nat) (tr : trace) : Prop := i = i' \/ hb tr i i'.
Definition reach (tr : trace) (i t : nat) : Prop := exists i' e, here i i' tr /\ tr !! i' = Some e /\ (part t e \/ e.2 = AGo t).
Definition reachm (tr : trace) (i m : nat) : Prop := exists i' e, here i i' tr /\ tr !! i' = Some e /\ e.2 = AUnlock m.
Definition reachc (tr : trace) (i c : nat) : Prop := exists i' e, here i i' tr /\ tr !! i' = Some e /\ e.2 = AClose c.
Lemma here_old i i' tr x : here i i' tr -> here i i' (tr ++ [x]).
Proof. intros [-> |H]; [by left|right]. by apply hb_old. Qed.
Lemma reach_old tr x i t : reach tr i t -> reach (tr ++ [x]) i t.
Proof. intros (i' & e & H1 & H2 & H3). exists i', e. split; [by apply here_old|]. split; [by apply lookup_old|done]. Qed.
Lemma reachm_old tr x i t : reachm tr i t -> reachm (tr ++ [x]) i t.
Proof. intros (i' & e & H1 & H2 & H3). exists i', e. split; [by apply here_old|]. split; [by apply lookup_old|done]. Qed.
Lemma reachc_old tr x i t : reachc tr i t -> reachc (tr ++ [x]) i t.
Proof. intros (i' & e & H1 & H2 & H3). exists i', e. split; [by apply here_old|]. split; [by apply lookup_old|done]. Qed.
Lemma last_at {A} (l : list A) x : (l ++ [x]) !! length l = Some x.
Proof. by rewrite list_lookup_middle. Qed.
Lemma hb_step tr x i i' e : here i i' tr -> tr !! i' = Some e -> edge (tr ++ [x]) i' (length tr) -> hb (tr ++ [x]) i (length tr).
Proof.
  intros [-> |H] He Hedge; [by apply tc_once|]. eapply tc_r; [by apply hb_old|done].
Qed.
Lemma old_lt {A} (l : list A) i e : l !! i = Some e -> i < length l.
Proof. apply lookup_lt_Some. Qed.
Lemma reach_hb tr i t e : reach tr i t -> part t e -> hb (tr ++ [e]) i (length tr).
Proof.
  intros (i' & e' & H1 & H2 & H3) Hp. eapply hb_step; [done..|]. split; [by eapply old_lt|]. exists e', e.
  split; [by apply lookup_old|]. split; [apply last_at|]. destruct H3 as [H3|H3]; [left; by exists t|right; left; by exists t].
Qed.
Lemma reachm_hb tr i m e : reachm tr i m -> e.2 = ALock m -> hb (tr ++ [e]) i (length tr).
Proof.
  intros (i' & e' & H1 & H2 & H3) Hp. eapply hb_step; [done..|]. split; [by eapply old_lt|]. exists e', e.
  split; [by apply lookup_old|]. split; [apply last_at|]. right; right; left; by exists m.
Qed.
Lemma reachc_hb tr i c e : reachc tr i c -> e.2 = AClosed c -> hb (tr ++ [e]) i (length tr).
Proof.
  intros (i' & e' & H1 & H2 & H3) Hp. eapply hb_step; [done..|]. split; [by eapply old_lt|]. exists e', e.
  split; [by apply lookup_old|]. split; [apply last_at|]. right; right; right; by exists c.
Qed.
Lemma reach_new tr i e t : here i (length tr) (tr ++ [e]) -> (part t e \/ e.2 = AGo t) -> reach (tr ++ [e]) i t.
Proof. intros H1 H2. exists (length tr), e. split; [done|]. split; [apply last_at|done]. Qed.
Notation vars := (fun l => grd l <> ∅).
Lemma race_snoc tr t a : race_free_on vars tr ->
  (forall l i u b, grd l <> ∅ -> tr !! i = Some (u, b) -> conflict l b a -> reach tr i t) -> race_free_on vars (tr ++ [(t, a)]).
Proof.
  intros HR Hnew l i j t1 a1 t2 a2 Hl Hi Hj Hc Hij.
  apply lookup_snoc_inv in Hi as [Hi|[-> [= -> ->]]]; apply lookup_snoc_inv in Hj as [Hj|[-> [= -> ->]]].
  - destruct (HR l i j t1 a1 t2 a2 Hl Hi Hj Hc Hij) as [H|H]; [left|right]; by apply hb_old.
  - left. eapply reach_hb; [by eapply Hnew|by left].
  - right. eapply reach_hb; [eapply Hnew; [done..|]|by left]. unfold conflict in *. tauto.
  - done.
Qed.
(** ** The invariant *)
Record minv (s : mstate) (T F : nat -> perms) (Z : perms) : Prop := {
  v_ty : forall t p, m_thr s !! t = Some p -> exists T' F', ty (T t) (F t) p T' F';
  v_none : forall t, m_thr s !! t = None -> T t = ∅ /\ F t = ∅;
  v_lt : forall t p, m_thr s !! t = Some p -> t < m_fresh s;
  v_excl : forall t u k, k ∈ T t -> k ∈ T u -> t = u;
  v_fz : forall t k, k ∈ F t -> k ∈ Z;
  v_dj : forall t k, k ∈ T t -> k ∈ Z -> False;
  v_mu : forall m, (exists t, TMu m ∈ T t) \/ TMu m ∈ Z -> m ∈ m_held s;
  v_obj : forall o, (exists t, TObj o ∈ T t) \/ TObj o ∈ Z -> o < m_fresh s;
  v_closed : forall c k, c ∈ m_closed s -> k ∈ pay c -> k ∈ Z;
  v_wr : forall i t l, m_tr s !! i = Some (t, AWr l) ->
    (forall u p, m_thr s !! u = Some p -> reach (m_tr s) i u) \/
    (forall k, k ∈ grd l -> (forall u, k ∈ T u \/ k ∈ F u -> reach (m_tr s) i u) /\
       (forall m, k = TMu m -> m ∉ m_held s -> reachm (m_tr s) i m) /\
       (forall c, c ∈ m_closed s -> k ∈ pay c -> reachc (m_tr s) i c) /\
       (forall o, k = TObj o -> o < m_fresh s));
  v_rd : forall i t l, grd l <> ∅ -> m_tr s !! i = Some (t, ARd l) -> exists k, k ∈ grd l /\
       (forall u, k ∈ T u -> reach (m_tr s) i u) /\
       (forall m, k = TMu m -> m ∉ m_held s -> reachm (m_tr s) i m) /\
       (forall o, k = TObj o -> o < m_fresh s);
  v_race : race_free_on vars (m_tr s)
}.

Definition upd (f : nat -> perms) (t : nat) (x : perms) : nat -> perms := fun u => if decide (u = t) then x else f u.
Lemma upd_eq f t x : upd f t x t = x.
Proof. unfold upd. by rewrite decide_True. Qed.
Lemma upd_ne f t x u : u <> t -> upd f t x u = f u.
Proof. intros H. unfold upd. by rewrite decide_False. Qed.

(** Giving up permissions. *)
Lemma minv_ghost s T F Z t T1 F1 K p T' F' : minv s T F Z -> m_thr s !! t = Some p ->
  T1 ∪ K ⊆ T t -> T1 ## K -> F1 ⊆ F t ∪ K -> ty T1 F1 p T' F' -> minv s (upd T t T1) (upd F t F1) (Z ∪ K).
Proof.
  intros HI Ht HT Hd HF Hty.
  assert (HT1 : forall u k, k ∈ upd T t T1 u -> k ∈ T u).
  { intros u k. destruct (decide (u = t)) as [-> |Hu]; [rewrite upd_eq; set_solver|by rewrite upd_ne]. }
  assert (HF1 : forall u k, k ∈ upd F t F1 u -> k ∈ F u \/ (u = t /\ k ∈ K)).
  { intros u k. destruct (decide (u = t)) as [-> |Hu]; [rewrite upd_eq; set_solver|rewrite upd_ne by done; tauto]. }
  assert (HKT : forall k, k ∈ K -> k ∈ T t) by set_solver.
  assert (HKn : forall u k, k ∈ upd T t T1 u -> k ∈ K -> False).
  { intros u k Hk HkK. destruct (decide (u = t)) as [-> |Hu]; [rewrite upd_eq in Hk; set_solver|].
    rewrite upd_ne in Hk by done. apply Hu. eapply (v_excl _ _ _ _ HI); [exact Hk|by apply HKT]. }
  constructor.
  - intros u q Hu. destruct (decide (u = t)) as [-> |Hne].
    + rewrite !upd_eq. assert (q = p) as -> by congruence. eauto.
    + rewrite !upd_ne by done. by apply (v_ty _ _ _ _ HI).
  - intros u Hu. rewrite !upd_ne by congruence. by apply (v_none _ _ _ _ HI).
  - apply (v_lt _ _ _ _ HI).
  - intros u u' k H1 H2. eapply (v_excl _ _ _ _ HI); [by apply HT1|by apply HT1].
  - intros u k Hk. apply HF1 in Hk as [Hk|[_ Hk]]; [|set_solver]. apply (v_fz _ _ _ _ HI) in Hk. set_solver.
  - intros u k Hk HZ. apply elem_of_union in HZ as [HZ|HZ]; [|by eapply HKn]. eapply (v_dj _ _ _ _ HI); [by apply HT1|done].
  - intros m [[u Hu]|Hm]; apply (v_mu _ _ _ _ HI); [left; exists u; by apply HT1|].
    apply elem_of_union in Hm as [Hm|Hm]; [by right|left; exists t; by apply HKT].
  - intros o [[u Hu]|Ho]; apply (v_obj _ _ _ _ HI); [left; exists u; by apply HT1|].
    apply elem_of_union in Ho as [Ho|Ho]; [by right|left; exists t; by apply HKT].
  - intros c k H1 H2. apply elem_of_union_l. by eapply (v_closed _ _ _ _ HI).
  - intros i u l Hi. destruct (v_wr _ _ _ _ HI i u l Hi) as [H|H]; [by left|right]. intros k Hk.
    destruct (H k Hk) as (H1 & H2 & H3 & H4). split; [|done]. intros u' [Hu|Hu].
    + apply H1. left. by apply HT1.
    + apply HF1 in Hu as [Hu|[-> Hu]]; apply H1; [by right|left; by apply HKT].
  - intros i u l Hl Hi. destruct (v_rd _ _ _ _ HI i u l Hl Hi) as (k & Hk & H1 & H2). exists k. split; [done|]. split; [|done].
    intros u' Hu. apply H1. by apply HT1.
  - apply (v_race _ _ _ _ HI).
Qed.

(** An event of goroutine [t]: what it does to the placing of older accesses. *)
Definition moves (s s' : mstate) (T F T' F' : nat -> perms) (t : nat) (a : act) : Prop :=
  m_tr s' = m_tr s ++ [(t, a)] /\ m_fresh s <= m_fresh s' /\ (exists q, m_thr s !! t = Some q) /\
  (forall u p, m_thr s' !! u = Some p -> (exists q, m_thr s !! u = Some q) \/ a = AGo u) /\
  (forall u k, k ∈ T' u -> k ∈ T u \/ (exists m, k = TMu m /\ m ∉ m_held s /\ u = t /\ a = ALock m) \/ (a = AGo u /\ k ∈ T t)) /\
  (forall u k, k ∈ F' u -> k ∈ F u \/ (u = t /\ k ∈ T t) \/ (exists c, u = t /\ a = AClosed c /\ c ∈ m_closed s /\ k ∈ pay c) \/ (a = AGo u /\ k ∈ F t)) /\
  (forall m, m ∉ m_held s' -> m ∉ m_held s \/ (a = AUnlock m /\ TMu m ∈ T t)) /\
  (forall c, c ∈ m_closed s' -> c ∈ m_closed s \/ (a = AClose c /\ pay c ⊆ T t)).
Lemma reach_go tr i t u : reach tr i t -> reach (tr ++ [(t, AGo u)]) i u.
Proof. intros H. apply reach_new; [right; eapply reach_hb; [done|by left]|by right]. Qed.
Lemma moves_wr s s' T F T' F' Z t a i u l : minv s T F Z -> moves s s' T F T' F' t a -> m_tr s !! i = Some (u, AWr l) ->
  (forall u p, m_thr s' !! u = Some p -> reach (m_tr s') i u) \/
  (forall k, k ∈ grd l -> (forall u, k ∈ T' u \/ k ∈ F' u -> reach (m_tr s') i u) /\
     (forall m, k = TMu m -> m ∉ m_held s' -> reachm (m_tr s') i m) /\
     (forall c, c ∈ m_closed s' -> k ∈ pay c -> reachc (m_tr s') i c) /\
     (forall o, k = TObj o -> o < m_fresh s')).
Proof.
  intros HI (Htr & Hfr & [qt Ht] & Hthr & HT & HF & Hheld & Hcl) Hi. rewrite Htr.
  destruct (v_wr _ _ _ _ HI i u l Hi) as [H|H].
  - left. intros v p Hv. destruct (Hthr v p Hv) as [[q Hq]| ->]; [apply reach_old; by eapply H|]. apply reach_go. by eapply H.
  - right. intros k Hk. destruct (H k Hk) as (H1 & H2 & H3 & H4). split_and!.
    + intros v [Hv|Hv].
      * apply HT in Hv as [Hv|[(m & -> & Hm & -> & ->)|[-> Hv]]].
        -- apply reach_old, H1. by left.
        -- apply reach_new; [right; eapply reachm_hb; [by apply H2|done]|by left; left].
        -- apply reach_go, H1. by left.
      * apply HF in Hv as [Hv|[[-> Hv]|[(c & -> & -> & Hc & Hv)|[-> Hv]]]].
        -- apply reach_old, H1. by right.
        -- apply reach_old, H1. by left.
        -- apply reach_new; [right; eapply reachc_hb; [by apply H3|done]|by left; left].
        -- apply reach_go, H1. by right.
    + intros m -> Hm. apply Hheld in Hm as [Hm|[-> Hm]]; [by apply reachm_old, H2|].
      exists (length (m_tr s)), (t, AUnlock m). split; [right; eapply reach_hb; [apply H1; by left|by left]|]. split; [apply last_at|done].
    + intros c Hc Hp. apply Hcl in Hc as [Hc|[-> Hc]]; [by apply reachc_old, H3|].
      exists (length (m_tr s)), (t, AClose c). split; [right; eapply reach_hb; [apply H1; left; by apply Hc|by left]|]. split; [apply last_at|done].
    + intros o ->. specialize (H4 o eq_refl). lia.
Qed.
Lemma moves_rd s s' T F T' F' Z t a i u l : minv s T F Z -> moves s s' T F T' F' t a -> grd l <> ∅ -> m_tr s !! i = Some (u, ARd l) ->
  exists k, k ∈ grd l /\ (forall u, k ∈ T' u -> reach (m_tr s') i u) /\
     (forall m, k = TMu m -> m ∉ m_held s' -> reachm (m_tr s') i m) /\
     (forall o, k = TObj o -> o < m_fresh s').
Proof.
  intros HI (Htr & Hfr & [qt Ht] & Hthr & HT & HF & Hheld & Hcl) Hl Hi. rewrite Htr.
  destruct (v_rd _ _ _ _ HI i u l Hl Hi) as (k & Hk & H1 & H2 & H4). exists k. split; [done|]. split_and!.
  - intros v Hv. apply HT in Hv as [Hv|[(m & -> & Hm & -> & ->)|[-> Hv]]].
    + by apply reach_old, H1.
    + apply reach_new; [right; eapply reachm_hb; [by apply H2|done]|by left; left].
    + by apply reach_go, H1.
  - intros m -> Hm. apply Hheld in Hm as [Hm|[-> Hm]]; [by apply reachm_old, H2|].
    exists (length (m_tr s)), (t, AUnlock m). split; [right; eapply reach_hb; [by apply H1|by left]|]. split; [apply last_at|done].
  - intros o ->. specialize (H4 o eq_refl). lia.
Qed.

Lemma thr_put t p s u : m_thr (put t p s) !! u = if decide (u = t) then Some p else m_thr s !! u.
Proof. cbn. destruct (decide (u = t)) as [-> |H]; [by rewrite lookup_insert|by rewrite lookup_insert_ne]. Qed.

Lemma thr_ins t (p : list cmd) (M : gmap nat (list cmd)) u : <[t := p]> M !! u = if decide (u = t) then Some p else M !! u.
Proof. destruct (decide (u = t)) as [-> |H]; [by rewrite lookup_insert|by rewrite lookup_insert_ne]. Qed.
(** Steps without an event, and without new permissions. *)
Lemma minv_put s T F Z t p q T' F' : minv s T F Z -> m_thr s !! t = Some q -> ty (T t) (F t) p T' F' -> minv (put t p s) T F Z.
Proof.
  intros HI Ht Hty. constructor; cbn [m_held m_closed m_fresh m_tr put set]; try (by apply HI).
  - intros u r. rewrite thr_put. destruct (decide (u = t)) as [-> |Hu]; [intros [= <-]; eauto|apply (v_ty _ _ _ _ HI)].
  - intros u. rewrite thr_put. destruct (decide (u = t)) as [-> |Hu]; [done|apply (v_none _ _ _ _ HI)].
  - intros u r. rewrite thr_put. destruct (decide (u = t)) as [-> |Hu]; [intros _; by eapply (v_lt _ _ _ _ HI)|apply (v_lt _ _ _ _ HI)].
  - intros i u l Hi. destruct (v_wr _ _ _ _ HI i u l Hi) as [H|H]; [left|by right].
    intros v r. rewrite thr_put. destruct (decide (v = t)) as [-> |Hv]; [intros _; by eapply H|apply H].
Qed.

Record fields (s : mstate) (T F : nat -> perms) (Z : perms) : Prop := {
  f_ty : forall t p, m_thr s !! t = Some p -> exists T' F', ty (T t) (F t) p T' F';
  f_none : forall t, m_thr s !! t = None -> T t = ∅ /\ F t = ∅;
  f_lt : forall t p, m_thr s !! t = Some p -> t < m_fresh s;
  f_excl : forall t u k, k ∈ T t -> k ∈ T u -> t = u;
  f_fz : forall t k, k ∈ F t -> k ∈ Z;
  f_dj : forall t k, k ∈ T t -> k ∈ Z -> False;
  f_mu : forall m, (exists t, TMu m ∈ T t) \/ TMu m ∈ Z -> m ∈ m_held s;
  f_obj : forall o, (exists t, TObj o ∈ T t) \/ TObj o ∈ Z -> o < m_fresh s;
  f_closed : forall c k, c ∈ m_closed s -> k ∈ pay c -> k ∈ Z
}.
Lemma minv_ev s s' T F Z T' F' Z' t a : minv s T F Z -> moves s s' T F T' F' t a -> fields s' T' F' Z' ->
  (forall l, a = AWr l -> grd l ⊆ T t /\ grd l ⊆ T' t) ->
  (forall l, a = ARd l -> grd l <> ∅ -> exists k, k ∈ grd l /\ (k ∈ T t /\ k ∈ T' t \/ k ∈ F t /\ k ∈ F' t)) ->
  minv s' T' F' Z'.
Proof.
  intros HI Hm HF HW HR. pose proof Hm as (Htr & _). destruct HF. constructor; try assumption.
  - intros i u l. rewrite Htr. intros Hi. apply lookup_snoc_inv in Hi as [Hi|[-> [= -> <-]]].
    + rewrite <- Htr. by eapply moves_wr.
    + right. destruct (HW l eq_refl) as [_ Hg]. intros k Hk. apply Hg in Hk. split_and!.
      * intros u [Hu|Hu]; [|exfalso; eauto]. assert (u = t) as -> by eauto. apply reach_new; [by left|by left; left].
      * intros m -> Hm'. exfalso. apply Hm'. eauto.
      * intros c Hc Hp. exfalso. eauto.
      * intros o ->. eauto.
  - intros i u l Hl. rewrite Htr. intros Hi. apply lookup_snoc_inv in Hi as [Hi|[-> [= -> <-]]].
    + rewrite <- Htr. by eapply moves_rd.
    + destruct (HR l eq_refl Hl) as (k & Hk & Hg). exists k. split; [done|]. split_and!.
      * intros u Hu. destruct Hg as [[_ Hg]|[_ Hg]]; [|exfalso; eauto]. assert (u = t) as -> by eauto. apply reach_new; [by left|by left; left].
      * intros m -> Hm'. exfalso. apply Hm'. destruct Hg as [[_ Hg]|[_ Hg]]; eauto.
      * intros o ->. destruct Hg as [[_ Hg]|[_ Hg]]; eauto.
  - rewrite Htr. apply race_snoc; [apply HI|]. destruct Hm as (_ & _ & [q Hq] & _).
    intros l i u b Hl Hi [[-> Hb]|[-> ->]].
    + destruct (v_wr _ _ _ _ HI i u l Hi) as [H|H]; [by eapply H|]. destruct Hb as [-> | ->].
      * destruct (HW l eq_refl) as [Hg _]. apply set_choose_L in Hl as [k Hk].
        apply (H k Hk). left. by apply Hg.
      * destruct (HR l eq_refl Hl) as (k & Hk & Hg). apply (H k Hk). destruct Hg as [[Hg _]|[Hg _]]; [by left|by right].
    + destruct (HW l eq_refl) as [Hg _]. destruct (v_rd _ _ _ _ HI i u l Hl Hi) as (k & Hk & H1 & _).
      apply H1. by apply Hg.
Qed.

Ltac cut_upd u t := destruct (decide (u = t)) as [-> | ?]; [rewrite ?upd_eq in * | rewrite ?upd_ne in * by done].

Lemma mstep_inv s t n s' T F Z : minv s T F Z -> mstep s t n = Some s' -> exists T' F' Z', minv s' T' F' Z'.
Proof.
  intros HI Hst. unfold mstep in Hst. destruct (m_thr s !! t) as [[|c p]|] eqn:Ht; try done.
  destruct (v_ty _ _ _ _ HI t _ Ht) as (Te & Fe & Hty).
  destruct (ty_head _ _ _ _ _ _ Hty) as (T1 & F1 & K & HT & Hd & HF & Hty1 & Hh).
  pose proof (minv_ghost _ _ _ _ _ _ _ _ _ _ _ HI Ht HT Hd HF Hty1) as HG. clear HI.
  remember (upd T t T1) as T0 eqn:HT0. remember (upd F t F1) as F0 eqn:HF0. remember (Z ∪ K) as Z0 eqn:HZ0.
  assert (HTt : T1 = T0 t) by (subst T0; by rewrite upd_eq). assert (HFt : F1 = F0 t) by (subst F0; by rewrite upd_eq).
  clear HT0 HF0 HZ0 HT Hd HF Hty. subst T1 F1. clear T F Z K. rename T0 into T, F0 into F, Z0 into Z, HG into HI.
  assert (Hlt : t < m_fresh s) by (by eapply (v_lt _ _ _ _ HI)).
  destruct c; cbn [head] in Hh.
  - (* Rd *) injection Hst as <-. destruct Hh as [Hk Hh]. exists T, F, Z.
    eapply minv_ev with (t := t) (a := ARd l); [exact HI| | |discriminate|].
    + split_and!; cbn; try done; eauto. intros u q. rewrite thr_ins. destruct (decide (u = t)) as [-> |]; eauto.
    + pose proof (minv_put _ _ _ _ _ _ _ _ _ HI Ht Hh) as H. destruct H. by constructor.
    + intros l' [= <-] Hl. destruct Hk as [Hk|(k & Hk & HkT)]; [done|]. exists k. split; [done|tauto].
  - (* Wr *) injection Hst as <-. destruct Hh as (Hg & Hh). exists T, F, Z.
    eapply minv_ev with (t := t) (a := AWr l); [exact HI| | | |discriminate].
    + split_and!; cbn; try done; eauto. intros u q. rewrite thr_ins. destruct (decide (u = t)) as [-> |]; eauto.
    + pose proof (minv_put _ _ _ _ _ _ _ _ _ HI Ht Hh) as H. destruct H. by constructor.
    + intros l' [= <-]. done.
  - (* Lock *) case_bool_decide as Hm; [done|]. injection Hst as <-. exists (upd T t ({[TMu m]} ∪ T t)), F, Z.
    assert (HmT : forall u, TMu m ∉ T u) by (intros u Hu; apply Hm; apply (v_mu _ _ _ _ HI); eauto).
    assert (HmZ : TMu m ∉ Z) by (intros Hu; apply Hm; apply (v_mu _ _ _ _ HI); eauto).
    assert (HT' : forall u k, k ∈ upd T t ({[TMu m]} ∪ T t) u -> k ∈ T u \/ (u = t /\ k = TMu m)).
    { intros u k. destruct (decide (u = t)) as [-> |]; [rewrite upd_eq; set_solver|rewrite upd_ne by done; tauto]. }
    eapply minv_ev with (t := t) (a := ALock m); [exact HI| | |discriminate..].
    + split_and!; cbn; try done; eauto.
      * intros u q. rewrite thr_ins. destruct (decide (u = t)) as [-> |]; eauto.
      * intros u k Hk. apply HT' in Hk as [Hk|[-> ->]]; [by left|]. right; left. eauto.
      * intros m' Hm'. left. set_solver.
    + constructor; cbn.
      * intros u q. rewrite thr_ins. destruct (decide (u = t)) as [-> |Hu].
        -- intros [= <-]. rewrite upd_eq. eauto.
        -- rewrite upd_ne by done. apply (v_ty _ _ _ _ HI).
      * intros u. rewrite thr_ins. destruct (decide (u = t)) as [-> |Hu]; [done|]. rewrite upd_ne by done. apply (v_none _ _ _ _ HI).
      * intros u q. rewrite thr_ins. destruct (decide (u = t)) as [-> |Hu]; [done|apply (v_lt _ _ _ _ HI)].
      * intros u v k Hu Hv. apply HT' in Hu as [Hu|[-> ->]]; apply HT' in Hv as [Hv|[-> Hv]]; subst; try done; try (exfalso; by eapply HmT).
        by eapply (v_excl _ _ _ _ HI).
      * apply (v_fz _ _ _ _ HI).
      * intros u k Hu. apply HT' in Hu as [Hu|[-> ->]]; [by eapply (v_dj _ _ _ _ HI)|done].
      * intros m' [[u Hu]|Hu]; [apply HT' in Hu as [Hu|[-> [= ->]]]; [|set_solver]|]; apply elem_of_union_r; apply (v_mu _ _ _ _ HI); eauto.
      * intros o [[u Hu]|Hu]; [apply HT' in Hu as [Hu|[-> [=]]]|]; apply (v_obj _ _ _ _ HI); eauto.
      * apply (v_closed _ _ _ _ HI).
  - (* Unlock *) case_bool_decide as Hm; [|done]. injection Hst as <-. destruct Hh as [HmT Hh]. exists (upd T t (T t ∖ {[TMu m]})), F, Z.
    assert (HT' : forall u k, k ∈ upd T t (T t ∖ {[TMu m]}) u -> k ∈ T u /\ k <> TMu m).
    { intros u k. destruct (decide (u = t)) as [-> |]; [rewrite upd_eq; set_solver|rewrite upd_ne by done].
      intros Hk. split; [done|]. intros ->. by assert (u = t) by (by eapply (v_excl _ _ _ _ HI)). }
    eapply minv_ev with (t := t) (a := AUnlock m); [exact HI| | |discriminate..].
    + split_and!; cbn; try done; eauto.
      * intros u q. rewrite thr_ins. destruct (decide (u = t)) as [-> |]; eauto.
      * intros u k Hk. apply HT' in Hk as [Hk _]. by left.
      * intros m' Hm'. destruct (decide (m' = m)) as [-> |]; [by right|left; set_solver].
    + constructor; cbn.
      * intros u q. rewrite thr_ins. destruct (decide (u = t)) as [-> |Hu].
        -- intros [= <-]. rewrite upd_eq. eauto.
        -- rewrite upd_ne by done. apply (v_ty _ _ _ _ HI).
      * intros u. rewrite thr_ins. destruct (decide (u = t)) as [-> |Hu]; [done|]. rewrite upd_ne by done. apply (v_none _ _ _ _ HI).
      * intros u q. rewrite thr_ins. destruct (decide (u = t)) as [-> |Hu]; [done|apply (v_lt _ _ _ _ HI)].
      * intros u v k Hu Hv. apply HT' in Hu as [Hu _]. apply HT' in Hv as [Hv _]. by eapply (v_excl _ _ _ _ HI).
      * apply (v_fz _ _ _ _ HI).
      * intros u k Hu. apply HT' in Hu as [Hu _]. by eapply (v_dj _ _ _ _ HI).
      * intros m' Hm'. apply elem_of_difference. split.
        -- apply (v_mu _ _ _ _ HI). destruct Hm' as [[u Hu]|Hu]; [apply HT' in Hu as [Hu _]|]; eauto.
        -- intros ->%elem_of_singleton. destruct Hm' as [[u Hu]|Hu]; [by apply HT' in Hu as [_ Hu]|]. by eapply (v_dj _ _ _ _ HI).
      * intros o [[u Hu]|Hu]; [apply HT' in Hu as [Hu _]|]; apply (v_obj _ _ _ _ HI); eauto.
      * apply (v_closed _ _ _ _ HI).
  - (* Close *) injection Hst as <-. destruct Hh as [Hp Hh]. exists (upd T t (T t ∖ pay c)), (upd F t (pay c ∪ F t)), (pay c ∪ Z).
    assert (HT' : forall u k, k ∈ upd T t (T t ∖ pay c) u -> k ∈ T u /\ k ∉ pay c).
    { intros u k. destruct (decide (u = t)) as [-> |]; [rewrite upd_eq; set_solver|rewrite upd_ne by done].
      intros Hk. split; [done|]. intros Hkp. by assert (u = t) by (eapply (v_excl _ _ _ _ HI); [exact Hk|by apply Hp]). }
    assert (HF' : forall u k, k ∈ upd F t (pay c ∪ F t) u -> k ∈ F u \/ (u = t /\ k ∈ pay c)).
    { intros u k. destruct (decide (u = t)) as [-> |]; [rewrite upd_eq; set_solver|rewrite upd_ne by done; tauto]. }
    eapply minv_ev with (t := t) (a := AClose c); [exact HI| | |discriminate..].
    + split_and!; cbn; try done; eauto.
      * intros u q. rewrite thr_ins. destruct (decide (u = t)) as [-> |]; eauto.
      * intros u k Hk. apply HT' in Hk as [Hk _]. by left.
      * intros u k Hk. apply HF' in Hk as [Hk|[-> Hk]]; [by left|right; left; split; [done|by apply Hp]].
      * intros c' Hc'. apply elem_of_union in Hc' as [->%elem_of_singleton|Hc']; [by right|by left].
    + constructor; cbn.
      * intros u q. rewrite thr_ins. destruct (decide (u = t)) as [-> |Hu].
        -- intros [= <-]. rewrite !upd_eq. eauto.
        -- rewrite !upd_ne by done. apply (v_ty _ _ _ _ HI).
      * intros u. rewrite thr_ins. destruct (decide (u = t)) as [-> |Hu]; [done|]. rewrite !upd_ne by done. apply (v_none _ _ _ _ HI).
      * intros u q. rewrite thr_ins. destruct (decide (u = t)) as [-> |Hu]; [done|apply (v_lt _ _ _ _ HI)].
      * intros u v k Hu Hv. apply HT' in Hu as [Hu _]. apply HT' in Hv as [Hv _]. by eapply (v_excl _ _ _ _ HI).
      * intros u k Hk. apply HF' in Hk as [Hk|[-> Hk]]; [|set_solver]. apply elem_of_union_r. by eapply (v_fz _ _ _ _ HI).
      * intros u k Hu Hz. apply HT' in Hu as [Hu Hn]. apply elem_of_union in Hz as [Hz|Hz]; [done|]. by eapply (v_dj _ _ _ _ HI).
      * intros m' [[u Hu]|Hu]; apply (v_mu _ _ _ _ HI); [apply HT' in Hu as [Hu _]; eauto|].
        apply elem_of_union in Hu as [Hu|Hu]; [left; exists t; by apply Hp|by right].
      * intros m' [[u Hu]|Hu]; apply (v_obj _ _ _ _ HI); [apply HT' in Hu as [Hu _]; eauto|].
        apply elem_of_union in Hu as [Hu|Hu]; [left; exists t; by apply Hp|by right].
      * intros c' k Hc' Hk. apply elem_of_union in Hc' as [->%elem_of_singleton|Hc']; [set_solver|]. apply elem_of_union_r. by eapply (v_closed _ _ _ _ HI).
  - (* Closed *) case_bool_decide as Hc; [|done]. injection Hst as <-. exists T, (upd F t (pay c ∪ F t)), Z.
    assert (HF' : forall u k, k ∈ upd F t (pay c ∪ F t) u -> k ∈ F u \/ (u = t /\ k ∈ pay c)).
    { intros u k. destruct (decide (u = t)) as [-> |]; [rewrite upd_eq; set_solver|rewrite upd_ne by done; tauto]. }
    eapply minv_ev with (t := t) (a := AClosed c); [exact HI| | |discriminate..].
    + split_and!; cbn; try done; eauto.
      * intros u q. rewrite thr_ins. destruct (decide (u = t)) as [-> |]; eauto.
      * intros u k Hk. apply HF' in Hk as [Hk|[-> Hk]]; [by left|right; right; left; eauto].
    + constructor; cbn.
      * intros u q. rewrite thr_ins. destruct (decide (u = t)) as [-> |Hu].
        -- intros [= <-]. rewrite !upd_eq. eauto.
        -- rewrite !upd_ne by done. apply (v_ty _ _ _ _ HI).
      * intros u. rewrite thr_ins. destruct (decide (u = t)) as [-> |Hu]; [done|]. rewrite !upd_ne by done. apply (v_none _ _ _ _ HI).
      * intros u q. rewrite thr_ins. destruct (decide (u = t)) as [-> |Hu]; [done|apply (v_lt _ _ _ _ HI)].
      * apply (v_excl _ _ _ _ HI).
      * intros u k Hk. apply HF' in Hk as [Hk|[-> Hk]]; [by eapply (v_fz _ _ _ _ HI)|by eapply (v_closed _ _ _ _ HI)].
      * apply (v_dj _ _ _ _ HI).
      * apply (v_mu _ _ _ _ HI).
      * apply (v_obj _ _ _ _ HI).
      * apply (v_closed _ _ _ _ HI).
  - (* Open *) case_bool_decide; [done|]. injection Hst as <-. exists T, F, Z. eapply minv_put; eauto.
  - (* Send *) destruct (m_thr s !! n) as [[|[] k']|] eqn:Hn; try done.
    destruct (bool_decide (c = c0) && negb (bool_decide (n = t))) eqn:Hcn; [|done]. injection Hst as <-.
    apply andb_true_iff in Hcn as [_ Hnt]. apply negb_true_iff, bool_decide_eq_false in Hnt.
    destruct (v_ty _ _ _ _ HI n _ Hn) as (Tn & Fn & Htyn).
    destruct (ty_head _ _ _ _ _ _ Htyn) as (T1 & F1 & K & HT & Hd & HF & Hty2 & Hh2). cbn [head] in Hh2.
    pose proof (minv_ghost _ _ _ _ _ _ _ _ _ _ _ HI Hn HT Hd HF Hty2) as HG.
    exists (upd T n T1), (upd F n F1), (Z ∪ K).
    assert (HX : exists Tx Fx, ty (upd T n T1 t) (upd F n F1 t) p Tx Fx) by (rewrite !upd_ne by done; eauto). destruct HX as (Tx & Fx & HX).
    assert (HY : exists Ty Fy, ty (upd T n T1 n) (upd F n F1 n) k' Ty Fy) by (rewrite !upd_eq; eauto). destruct HY as (Ty & Fy & HY).
    pose proof (minv_put _ _ _ _ _ _ _ _ _ HG Ht HX) as HG1.
    assert (Hn1 : m_thr (put t p s) !! n = Some (Recv c0 :: k')) by (rewrite thr_put; by rewrite decide_False).
    pose proof (minv_put _ _ _ _ _ _ _ _ _ HG1 Hn1 HY) as HG2.
    eapply minv_ev with (t := t) (a := AMeet n); [exact HG2| | |discriminate..].
    + split_and!; cbn; try done; eauto. exists p. by rewrite lookup_insert_ne, lookup_insert.
    + destruct HG2. by constructor.
  - done.
  - (* Go *) injection Hst as <-. destruct Hh as (Tc & Tq & Fq & HTc & Hq & Hh). pose (f := m_fresh s).
    assert (Hf : m_thr s !! f = None) by (destruct (m_thr s !! f) eqn:H; [apply (v_lt _ _ _ _ HI) in H; unfold f in H; lia|done]).
    destruct (v_none _ _ _ _ HI f Hf) as [HTf HFf]. assert (Hft : f <> t) by (unfold f; lia).
    exists (upd (upd T t (T t ∖ Tc)) f Tc), (upd F f (F t)), Z.
    assert (HT' : forall u k, k ∈ upd (upd T t (T t ∖ Tc)) f Tc u -> (k ∈ T u /\ u <> f /\ (k ∈ Tc -> False)) \/ (u = f /\ k ∈ Tc)).
    { intros u k. destruct (decide (u = f)) as [-> |Hu]; [rewrite upd_eq; tauto|rewrite upd_ne by done].
      destruct (decide (u = t)) as [-> |Hu']; [rewrite upd_eq; set_solver|rewrite upd_ne by done]. intros Hk. left. split; [done|]. split; [done|].
      intros Hc. apply Hu'. eapply (v_excl _ _ _ _ HI); [exact Hk|by apply HTc]. }
    assert (HF' : forall u k, k ∈ upd F f (F t) u -> k ∈ F u \/ (u = f /\ k ∈ F t)).
    { intros u k. destruct (decide (u = f)) as [-> |]; [rewrite upd_eq; tauto|rewrite upd_ne by done; tauto]. }
    assert (Hthr : forall u, m_thr (put f p0 (put t p (s <| m_fresh ::= S |>))) !! u = if decide (u = f) then Some p0 else if decide (u = t) then Some p else m_thr s !! u).
    { intros u. rewrite thr_put. destruct (decide (u = f)); [done|]. by rewrite thr_put. }
    eapply minv_ev with (t := t) (a := AGo f); [exact HI| | |discriminate..].
    + split_and!; cbn; try done; eauto.
      * intros u q. specialize (Hthr u). cbn in Hthr. fold f. rewrite Hthr. destruct (decide (u = f)) as [-> |]; [by right|].
        destruct (decide (u = t)) as [-> |]; eauto.
      * intros u k Hk. apply HT' in Hk as [(Hk & _)|[-> Hk]]; [by left|]. right; right. split; [done|by apply HTc].
      * intros u k Hk. apply HF' in Hk as [Hk|[-> Hk]]; [by left|]. right; right; right. done.
    + constructor; cbn; try fold f.
      * intros u q. specialize (Hthr u). cbn in Hthr. fold f. rewrite Hthr. destruct (decide (u = f)) as [-> |Hu].
        -- intros [= <-]. rewrite !upd_eq. eauto.
        -- rewrite !(upd_ne _ f) by done. destruct (decide (u = t)) as [-> |Hu'].
           ++ intros [= <-]. rewrite upd_eq. eauto.
           ++ rewrite upd_ne by done. apply (v_ty _ _ _ _ HI).
      * intros u. specialize (Hthr u). cbn in Hthr. fold f. rewrite Hthr. destruct (decide (u = f)) as [-> |Hu]; [done|].
        destruct (decide (u = t)) as [-> |Hu']; [done|]. rewrite !upd_ne by done. apply (v_none _ _ _ _ HI).
      * intros u q. specialize (Hthr u). cbn in Hthr. fold f. rewrite Hthr. destruct (decide (u = f)) as [-> |Hu]; [unfold f; lia|].
        destruct (decide (u = t)) as [-> |Hu']; [unfold f; lia|]. intros H. apply (v_lt _ _ _ _ HI) in H. unfold f; lia.
      * intros u v k Hu Hv. apply HT' in Hu as [(Hu & ? & ?)|[-> Hu]]; apply HT' in Hv as [(Hv & ? & ?)|[-> Hv]]; try done; try tauto.
        by eapply (v_excl _ _ _ _ HI).
      * intros u k Hk. apply HF' in Hk as [Hk|[-> Hk]]; by eapply (v_fz _ _ _ _ HI).
      * intros u k Hk. apply HT' in Hk as [(Hk & _)|[-> Hk]]; [by eapply (v_dj _ _ _ _ HI)|]. apply HTc in Hk. by eapply (v_dj _ _ _ _ HI).
      * intros m [[u Hu]|Hu]; apply (v_mu _ _ _ _ HI); [|by right]. apply HT' in Hu as [(Hu & _)|[-> Hu]]; [eauto|apply HTc in Hu; eauto].
      * intros o Ho. assert (o < m_fresh s); [|unfold f; lia]. apply (v_obj _ _ _ _ HI).
        destruct Ho as [[u Hu]|Hu]; [|by right]. apply HT' in Hu as [(Hu & _)|[-> Hu]]; [eauto|apply HTc in Hu; eauto].
      * apply (v_closed _ _ _ _ HI).
  - (* Choose *) destruct (ps !! n) as [q|] eqn:Hq; [|done]. injection Hst as <-. exists T, F, Z.
    eapply minv_put; [done..|]. apply Hh. by eapply elem_of_list_lookup_2.
  - (* Many *) injection Hst as <-. exists T, F, Z. destruct Hh as [H1 H2]. case_bool_decide; eapply minv_put; eauto.
  - (* New *) injection Hst as <-. pose (o := m_fresh s). exists (upd T t ({[TObj o]} ∪ T t)), F, Z.
    assert (Ho : forall u, TObj o ∉ T u) by (intros u Hu; assert (o < m_fresh s) by (apply (v_obj _ _ _ _ HI); eauto); unfold o in *; lia).
    assert (HoZ : TObj o ∉ Z) by (intros Hu; assert (o < m_fresh s) by (apply (v_obj _ _ _ _ HI); eauto); unfold o in *; lia).
    assert (HT' : forall u k, k ∈ upd T t ({[TObj o]} ∪ T t) u -> k ∈ T u \/ (u = t /\ k = TObj o)).
    { intros u k. destruct (decide (u = t)) as [-> |]; [rewrite upd_eq; set_solver|rewrite upd_ne by done; tauto]. }
    constructor; cbn.
    + intros u q. rewrite thr_ins. destruct (decide (u = t)) as [-> |Hu].
      * intros [= <-]. rewrite upd_eq. eauto.
      * rewrite upd_ne by done. apply (v_ty _ _ _ _ HI).
    + intros u. rewrite thr_ins. destruct (decide (u = t)) as [-> |Hu]; [done|]. rewrite upd_ne by done. apply (v_none _ _ _ _ HI).
    + intros u q. rewrite thr_ins. destruct (decide (u = t)) as [-> |Hu]; [lia|]. intros H. apply (v_lt _ _ _ _ HI) in H. lia.
    + intros u v k Hu Hv. apply HT' in Hu as [Hu|[-> ->]]; apply HT' in Hv as [Hv|[-> Hv]]; subst; try done; try (exfalso; by eapply Ho).
      by eapply (v_excl _ _ _ _ HI).
    + apply (v_fz _ _ _ _ HI).
    + intros u k Hu. apply HT' in Hu as [Hu|[-> ->]]; [by eapply (v_dj _ _ _ _ HI)|done].
    + intros m [[u Hu]|Hu]; [apply HT' in Hu as [Hu|[_ [=]]]|]; apply (v_mu _ _ _ _ HI); eauto.
    + intros o' Ho'. assert (o' < m_fresh s \/ o' = o) as [H| ->]; [|lia|unfold o; lia].
      destruct Ho' as [[u Hu]|Hu]; [apply HT' in Hu as [Hu|[_ [= ->]]]; [left|by right]|left]; apply (v_obj _ _ _ _ HI); eauto.
    + apply (v_closed _ _ _ _ HI).
    + intros i u l Hi. destruct (v_wr _ _ _ _ HI i u l Hi) as [H|H].
      * left. intros v q. rewrite thr_ins. destruct (decide (v = t)) as [-> |]; [intros _; by eapply H|apply H].
      * right. intros k Hk. destruct (H k Hk) as (H1 & H2 & H3 & H4). split_and!; try done.
        -- intros v [Hv|Hv]; [|apply H1; by right]. apply HT' in Hv as [Hv|[-> ->]]; [apply H1; by left|].
           specialize (H4 o eq_refl). unfold o in H4. lia.
        -- intros o' ->. specialize (H4 o' eq_refl). lia.
    + intros i u l Hl Hi. destruct (v_rd _ _ _ _ HI i u l Hl Hi) as (k & Hk & H1 & H2 & H4). exists k. split_and!; try done.
      * intros v Hv. apply HT' in Hv as [Hv|[-> ->]]; [by apply H1|]. specialize (H4 o eq_refl). unfold o in H4. lia.
      * intros o' ->. specialize (H4 o' eq_refl). lia.
    + apply (v_race _ _ _ _ HI).
Qed.

(** ** Main theorem: the main goroutine starts with the permissions [T0]; no mutex is locked. *)
Lemma init_tr ls i t a : map (fun l => (0, AWr l)) ls !! i = Some (t, a) -> t = 0 /\ exists l, a = AWr l.
Proof. rewrite list_lookup_fmap. destruct (ls !! i) as [l|]; [|done]. cbn. intros [= <- <-]. eauto. Qed.
Theorem typed_race_free P T0 T' F' s : (forall m, TMu m ∉ T0) -> (forall o, TObj o ∉ T0) -> ty T0 ∅ (p_main P) T' F' ->
  mreachable P s -> race_free_on (fun l => grd l <> ∅) (m_tr s).
Proof.
  intros Hm Ho Hty [ls Hrun].
  assert (HI : exists T F Z, minv (minit P) T F Z).
  { exists (upd (fun _ => ∅) 0 T0), (fun _ => ∅), ∅. constructor; cbn.
    - intros t p [<- <-]%lookup_singleton_Some. rewrite upd_eq. eauto.
    - intros t Ht. apply lookup_singleton_None in Ht. by rewrite upd_ne.
    - intros t p [<- <-]%lookup_singleton_Some. lia.
    - intros t u k. destruct (decide (t = 0)) as [-> |]; [|by rewrite upd_ne]. destruct (decide (u = 0)) as [-> |]; [done|by rewrite (upd_ne _ _ _ u)].
    - done.
    - done.
    - intros m [[t Ht]|Ht]; [|done]. destruct (decide (t = 0)) as [-> |]; [rewrite upd_eq in Ht; by destruct (Hm m)|by rewrite upd_ne in Ht].
    - intros m [[t Ht]|Ht]; [|done]. destruct (decide (t = 0)) as [-> |]; [rewrite upd_eq in Ht; by destruct (Ho m)|by rewrite upd_ne in Ht].
    - done.
    - intros i t l Hi. left. intros u p [<- <-]%lookup_singleton_Some. exists i, (t, AWr l). split; [by left|]. split; [done|].
      apply init_tr in Hi as [-> _]. left. by left.
    - intros i t l _ Hi. apply init_tr in Hi as [_ [l' [=]]].
    - intros l i j t a u b _ Hi Hj _ Hij. pose proof (init_tr _ _ _ _ Hi) as [-> _]. pose proof (init_tr _ _ _ _ Hj) as [-> _].
      assert (i < j \/ j < i) as [H|H] by lia; [left|right]; apply tc_once; (split; [done|]); eexists _, _; (split; [eassumption|]); (split; [eassumption|]);
        left; exists 0; split; by left. }
  revert HI Hrun. generalize (minit P). induction ls as [|[t n] ls IH]; cbn [mrun]; intros s0 HI Hrun.
  - injection Hrun as <-. destruct HI as (T & F & Z & HI). apply HI.
  - destruct (mstep s0 t n) as [s1|] eqn:Hst; [|done]. apply (IH s1); [|done].
    destruct HI as (T & F & Z & HI). by eapply mstep_inv.
Qed.
End perm.
