(** Workers made of workers: engines, runners and catacombs, whose own workers may again be engines, runners or
    catacombs (dependency/doc.go:147-152, catacomb/doc.go:8-19), down to plain workers. The state of each one is that
    of Engine.v, Runner.v or Catacomb.v; here they run together. What one calls Kill on is killed at the same moment,
    and what Wait returned to one is what the other's Wait returns. *)
From stdpp Require Import gmap strings list.
From RecordUpdate Require Import RecordSet.
From Verif Require Import Err Tomb.
From Verif Require Snapshot Engine Runner Catacomb.
Import RecordSetNotations.

(** worker.go:13-20 [Worker]. A catacomb stands for the worker built around it, with the Kill and Wait of
    catacomb/doc.go:59-65. A plain worker: was it killed, has it finished. *)
Inductive node :=
  | NEngine (E : Engine.env) (s : Engine.state)
  | NRunner (P : Runner.rcfg) (s : Runner.state)
  | NCatacomb (me : nat) (s : Catacomb.state)
  | NPlain (killed : bool) (fin : option (option err)).

(** engine.go:132-153, runner.go:206-248, a Catacomb not yet invoked (catacomb.go:29-34). *)
Definition fresh_node (nd : node) : Prop :=
  match nd with
  | NEngine _ s => s = Engine.init
  | NRunner _ s => s = Runner.init
  | NCatacomb _ s => s = Catacomb.init
  | NPlain k f => k = false /\ f = None
  end.

(** What happens in one of them. Steps of Engine.v, Runner.v, Catacomb.v (engine.go, runner.go, catacomb.go). *)
Inductive nlabel :=
  | LEngine (l : Engine.label) | LRunner (l : Runner.label) | LCatacomb (l : Catacomb.label)
  | LPlain (e : option err).                     (* a plain worker finishes *)

(** runtime.Goexit in worker.Wait and in Work is left out: C60, C62. runner.go:661, catacomb.go:129. *)
Definition goexit (l : nlabel) : bool :=
  match l with
  | LRunner (Runner.LCore (Runner.KLost _)) | LCatacomb (Catacomb.LWorkRet Catacomb.WkGoexit) => true
  | _ => false
  end.

(** As above (engine.go, runner.go, catacomb.go). *)
Definition nstep (nd : node) (l : nlabel) : option node :=
  if goexit l then None else
  match nd, l with
  | NEngine E s, LEngine l => NEngine E <$> Engine.step E s l
  | NRunner P s, LRunner l => NRunner P <$> Runner.step P s l
  | NCatacomb me s, LCatacomb l => NCatacomb me <$> Catacomb.step me s l
  | NPlain k None, LPlain e => Some (NPlain k (Some e))
  | _, _ => None
  end.

(** Worker.Kill: engine.go:230, runner.go:312, catacomb/doc.go:59. *)
Definition kill_label (nd : node) : option nlabel :=
  match nd with
  | NEngine _ _ => Some (LEngine Engine.LKill)
  | NRunner _ _ => Some (LRunner (Runner.LCore Runner.KKill))
  | NCatacomb _ _ => Some (LCatacomb (Catacomb.LKill None))
  | NPlain _ _ => None
  end.
(** As above (engine.go:230, runner.go:312). *)
Definition nkill (nd : node) : node :=
  match nd with
  | NPlain _ f => NPlain true f
  | _ => match kill_label nd with Some l => default nd (nstep nd l) | None => nd end
  end.

(** Worker.Wait: engine.go:235, runner.go:307, catacomb/doc.go:63. [None]: it blocks. *)
Definition nwait (nd : node) : option (option err) :=
  match nd with
  | NEngine E s => if t_dead (Engine.s_tomb s) then Some (Engine.wait_result E s) else None
  | NRunner _ s => tomb_wait (Runner.c_tomb (Runner.s_core s))
  | NCatacomb _ s => tomb_wait (Catacomb.x_tomb s)
  | NPlain _ f => f
  end.

(** The workers of a node have numbers: for an engine and a runner, the number of the goroutine that started it; for
    a catacomb, the number of the worker itself. A step may hand over workers (a Start func returns one, Invoke and Add
    are called with some), say that the node's call of a worker's Wait has returned, or call Kill on workers.
    engine.go:530, runner.go:656, catacomb.go:50, 100, 163. *)
Definition hands_over (l : nlabel) : list nat :=
  match l with
  | LEngine (Engine.LStartRet g (inl (Snapshot.WExt _))) => [g]
  | LRunner (Runner.LCore (Runner.KStartRet g (inl _))) => [g]
  | LCatacomb (Catacomb.LAdd _ (Catacomb.WExt k)) => [k]
  | LCatacomb (Catacomb.LInvoke _ p) =>
    omap (fun w => match w with Some (Catacomb.WExt k) => Some k | _ => None end) (Catacomb.p_init p)
  | _ => []
  end.
(** engine.go:565, runner.go:661, catacomb.go:190. *)
Definition waited (l : nlabel) : option (nat * option err) :=
  match l with
  | LEngine (Engine.LExit g e) => Some (g, e)
  | LRunner (Runner.LCore (Runner.KEnd g e)) => Some (g, e)
  | LCatacomb (Catacomb.LEnd k e) => Some (k, e)
  | _ => None
  end.
(** The calls of Kill at engine.go:548, 588, 742. *)
Definition ekill (ev : Engine.event) : option nat := match ev with Engine.EvKill g _ (Snapshot.WExt _) => Some g | _ => None end.
(** runner.go:296, 612. *)
Definition rkill (ev : Runner.event) : option nat :=
  match ev with
  | Runner.EvKill g _ _ => Some g
  | Runner.EvClient (Runner.CvKill _ g _) => Some g      (* by StopAndRemoveWorker *)
  | _ => None
  end.
(** catacomb.go:143, 166, 198. *)
Definition ckill (ev : Catacomb.event) : option nat := match ev with Catacomb.EvWKill _ (Catacomb.WExt k) => Some k | _ => None end.
(** As above (engine.go, runner.go, catacomb.go). *)
Definition has_killed (nd : node) (k : nat) : bool :=
  match nd with
  | NEngine _ s => bool_decide (Some k ∈ map ekill (Engine.s_log s))
  | NRunner _ s => bool_decide (Some k ∈ map rkill (Runner.c_log (Runner.s_core s)))
  | NCatacomb _ s => bool_decide (Some k ∈ map ckill (Catacomb.x_log s))
  | NPlain _ _ => false
  end.

(** A worker can be handed over when its constructor has returned; that of a catacomb's worker calls Invoke first
    (catacomb/doc.go:45-53). *)
Definition ready (nd : node) : bool :=
  match nd with NCatacomb _ s => match Catacomb.x_work s with Catacomb.WkNone => false | _ => true end | _ => true end.

(** Everything that exists: the workers, and which of them is worker number [k] of [n].
    The graph that doc.go:147-152 and catacomb/doc.go:8-19 speak of; no code keeps it. *)
Record forest := mkForest { f_nodes : gmap nat node; f_link : gmap (nat * nat) nat }.
Global Instance eta_forest : Settable _ := settable! mkForest <f_nodes; f_link>.
(** Nothing exists yet (before engine.go:132, runner.go:206). *)
Definition finit : forest := mkForest ∅ ∅.

(** Worker number [k] of [n] is [c]: [c] is ready, and [n] does not know another one by that number.
    A step that hands over a worker: engine.go:530, runner.go:656, catacomb.go:81, 163. *)
Definition linkable (F : forest) (n : nat) (kc : nat * nat) : bool :=
  match f_nodes F !! kc.2 with
  | Some nd => ready nd && bool_decide (f_link F !! (n, kc.1) = None \/ f_link F !! (n, kc.1) = Some kc.2)
  | None => false
  end.
(** As above (engine.go:530, runner.go:656, catacomb.go:81, 163). *)
Fixpoint add_links (F : forest) (n : nat) (kcs : list (nat * nat)) : option forest :=
  match kcs with
  | [] => Some F
  | kc :: rest => if linkable F n kc then add_links (F <| f_link ::= <[(n, kc.1) := kc.2]> |>) n rest else None
  end.
(** [c] is one of the workers on which [n] called Kill in this step.
    engine.go:548, 588, 742, runner.go:296, 612, catacomb.go:143, 166, 198. *)
Definition now_killed (F : forest) (n : nat) (old new : node) (c : nat) : bool :=
  existsb (fun x => bool_decide (x.1.1 = n) && bool_decide (x.2 = c) && has_killed new x.1.2 && negb (has_killed old x.1.2))
    (map_to_list (f_link F)).
(** As above. Simplification: the callee's Kill (engine.go:230, runner.go:312) is part of the caller's step. *)
Definition pass_kills (F : forest) (n : nat) (old new : node) : forest :=
  F <| f_nodes ::= map_imap (fun c nd => Some (if now_killed F n old new c then nkill nd else nd)) |>.

(** Construction (engine.go:132, runner.go:206), worker.go:15 [Kill], steps. *)
Inductive flabel :=
  | FNew (n : nat) (nd : node)                    (* a worker is constructed *)
  | FKill (n : nat)                               (* somebody calls Kill on it *)
  | FStep (n : nat) (l : nlabel) (cs : list nat). (* a step of [n], which hands over the workers [cs] *)

(** engine.go, runner.go, catacomb.go, as in Engine.v, Runner.v, Catacomb.v; worker.go:13-20 between them. *)
Definition fstep (F : forest) (l : flabel) : option forest :=
  match l with
  | FNew n nd => match f_nodes F !! n with None => Some (F <| f_nodes ::= <[n := nd]> |>) | Some _ => None end
  | FKill n => match f_nodes F !! n with Some nd => Some (F <| f_nodes ::= <[n := nkill nd]> |>) | None => None end
  | FStep n l cs =>
    match f_nodes F !! n with
    | None => None
    | Some nd =>
      if negb (bool_decide (length cs = length (hands_over l))) then None else
      if negb (match waited l with
               | Some (k, e) => match f_link F !! (n, k) with
                                | Some c => bool_decide ((f_nodes F !! c) ≫= nwait = Some e)
                                | None => false end
               | None => true end) then None else
      match nstep nd l, add_links F n (zip (hands_over l) cs) with
      | Some nd', Some F' => Some (pass_kills (F' <| f_nodes ::= <[n := nd']> |>) n nd nd')
      | _, _ => None
      end
    end
  end.
(** engine.go:132-153, runner.go:206-248. *)
Definition fok (l : flabel) : Prop := match l with FNew _ nd => fresh_node nd | _ => True end.
(** Executions (worker.go:13-20). *)
Fixpoint frun (F : forest) (ls : list flabel) : option forest :=
  match ls with [] => Some F | l :: ls' => match fstep F l with Some F' => frun F' ls' | None => None end end.
(** Executions (worker.go:13-20). *)
Definition freachable (F : forest) : Prop := exists ls, Forall fok ls /\ frun finit ls = Some F.
