From stdpp Require Import gmap strings list.
From Verif Require Import Err Stub StubSpec.

Lemma store_cases R t l :
  (exists t' x y, first_fit R t l t' x /\ rf_convert R t' t x = Some y /\ store R t l = Returns None (Some y)) \/
  (exists t' x, first_fit R t l t' x /\ rf_convert R t' t x = None /\ store R t l = Panics) \/
  (nil_first R t l /\ store R t l = Panics) \/
  (no_fit R t l /\ exists e, store R t l = Returns (Some e) None).
Proof.
  induction l as [|v l IH].
  - do 3 right. split; [by intros v ?%elem_of_nil|]. by eexists.
  - destruct v as [|t' x].
    { right; right; left. split; [|done]. exists [], l. split; [done|]. by intros v ?%elem_of_nil. }
    cbn [store]. destruct (rf_convertible R t' t) eqn:Hc.
    + assert (first_fit R t (VVal t' x :: l) t' x) as Hf. { exists [], l. split_and!; [done|done|]. by intros v ?%elem_of_nil. }
      destruct (rf_convert R t' t x) as [y|] eqn:Hy; [left; by exists t', x, y|right; left; by exists t', x].
    + destruct IH as [(u & z & y & (l1 & l2 & -> & Hu & Hl) & Hy & ->)|[(u & z & (l1 & l2 & -> & Hu & Hl) & Hy & ->)|[[(l1 & l2 & -> & Hl) ->]|[Hn (e & ->)]]]].
      * left. exists u, z, y. split; [|done]. exists (VVal t' x :: l1), l2. split_and!; [done|done|]. intros v [->|Hv]%elem_of_cons; [by exists t', x|auto].
      * right; left. exists u, z. split; [|done]. exists (VVal t' x :: l1), l2. split_and!; [done|done|]. intros v [->|Hv]%elem_of_cons; [by exists t', x|auto].
      * right; right; left. split; [|done]. exists (VVal t' x :: l1), l2. split; [done|]. intros v [->|Hv]%elem_of_cons; [by exists t', x|auto].
      * do 3 right. split; [|by eexists]. intros v [->|Hv]%elem_of_cons; [by exists t', x|auto].
Qed.

Lemma get_unknown R rs n out : rs !! n = None -> exists e, get R rs n out = Returns (Some e) None.
Proof. intros H. unfold get. rewrite H. by eexists. Qed.
Lemma get_error R rs n out r e : rs !! n = Some r -> rs_error r = Some e -> get R rs n out = Returns (Some e) None.
Proof. intros H He. unfold get. by rewrite H, He. Qed.
Lemma get_nil R rs n r : rs !! n = Some r -> rs_error r = None -> get R rs n ONil = Returns None None.
Proof. intros H He. unfold get. by rewrite H, He. Qed.
Lemma get_not_ptr R rs n r : rs !! n = Some r -> rs_error r = None -> exists e, get R rs n ONotPtr = Returns (Some e) None.
Proof. intros H He. unfold get. rewrite H, He. by eexists. Qed.
Lemma fit_store R t l t' x y : first_fit R t l t' x -> rf_convert R t' t x = Some y -> store R t l = Returns None (Some y).
Proof.
  intros (l1 & l2 & -> & Hc & Hl) Hy. induction l1 as [|v l1 IH]; cbn [app store].
  - by rewrite Hc, Hy.
  - destruct (Hl v) as (u & z & -> & Hu); [left|]. rewrite Hu. apply IH. intros w Hw. apply Hl. by right.
Qed.
Lemma nofit_store R t l : no_fit R t l -> exists e, store R t l = Returns (Some e) None.
Proof.
  induction l as [|v l IH]; intros H; [by eexists|]. destruct (H v) as (u & z & -> & Hu); [left|]. cbn [store]. rewrite Hu. apply IH. intros w Hw. apply H. by right.
Qed.
Lemma get_ptr R rs n r t : rs !! n = Some r -> rs_error r = None ->
  (forall t' x y, first_fit R t (rs_outputs r) t' x -> rf_convert R t' t x = Some y -> get R rs n (OPtr t) = Returns None (Some y)) /\
  (no_fit R t (rs_outputs r) -> exists e, get R rs n (OPtr t) = Returns (Some e) None).
Proof. intros H He. unfold get. rewrite H, He. split; [intros t' x y; apply fit_store|apply nofit_store]. Qed.
(** Nothing is stored together with an error, and success with a pointer stores the first output that fits. *)
Lemma get_atomic R rs n out e y : get R rs n out = Returns e (Some y) ->
  e = None /\ exists r t t' x, rs !! n = Some r /\ rs_error r = None /\ out = OPtr t /\ first_fit R t (rs_outputs r) t' x /\ rf_convert R t' t x = Some y.
Proof.
  unfold get. destruct (rs !! n) as [r|] eqn:Hn; [|done]. destruct (rs_error r) eqn:He; [done|]. destruct out as [| | |t]; try done. intros H.
  destruct (store_cases R t (rs_outputs r)) as [(t' & x & z & Hf & Hc & E)|[(? & ? & _ & _ & E)|[[_ E]|[_ (? & E)]]]]; rewrite E in H; try done.
  injection H as <- <-. split; [done|]. by exists r, t, t', x.
Qed.
Lemma get_panics R rs n out : get R rs n out = Panics <-> exists r, rs !! n = Some r /\ rs_error r = None /\
  ((exists t, out = ONilPtr t) \/
   exists t, out = OPtr t /\ (nil_first R t (rs_outputs r) \/ exists t' x, first_fit R t (rs_outputs r) t' x /\ rf_convert R t' t x = None)).
Proof.
  unfold get. split.
  - destruct (rs !! n) as [r|] eqn:Hn; [|done]. destruct (rs_error r) eqn:He; [done|]. destruct out as [| |t|t]; try done; intros H; exists r; split; try done; split; try done.
    + left. by exists t.
    + right. exists t. split; [done|]. destruct (store_cases R t (rs_outputs r)) as [(t' & x & z & Hf & Hc & E)|[(t' & x & Hf & Hc & _)|[[Hl _]|[_ (? & E)]]]]; try (rewrite E in H; done).
      * right. by exists t', x.
      * by left.
  - intros (r & -> & -> & [(t & ->)|(t & -> & [(l1 & l2 & -> & Hl)|(t' & x & (l1 & l2 & -> & Hc & Hl) & Hx)])]); [done| |]; induction l1 as [|v l1 IH]; cbn [app store].
    + done.
    + destruct (Hl v) as (u & z & -> & Hu); [left|]. rewrite Hu. apply IH. intros w Hw. apply Hl. by right.
    + by rewrite Hc, Hx.
    + destruct (Hl v) as (u & z & -> & Hu); [left|]. rewrite Hu. apply IH. intros w Hw. apply Hl. by right.
Qed.
(** NewStubResources *)
Lemma resources_lookup m n :
  match m !! n with
  | None => new_resources m !! n = None
  | Some (RawError e) => new_resources m !! n = Some (mkResource [] (Some e))
  | Some (RawSlice l) => new_resources m !! n = Some (mkResource l None)
  | Some (RawOther v) => new_resources m !! n = Some (mkResource [v] None)
  end.
Proof. unfold new_resources. rewrite lookup_fmap. by destruct (m !! n) as [[]|]. Qed.
