(** C90: what the engine's tables hold. Statements only. *)
From stdpp Require Import gmap strings list.
From Coq Require Import ZArith Lia.
From Verif Require Import Err Snapshot Engine EngineSpec EngineExample EngineTablesSpec.
From Verif Require EngineTables.

(** [manifolds] holds the manifolds that are installed, and [current] has an entry for each of them and for no other name. *)
Theorem C90_tables : forall E s n, reachable E s ->
  s_manifolds s !! n = installed (s_log s) n /\ (is_Some (s_current s !! n) <-> is_Some (installed (s_log s) n)).
Proof. exact EngineTables.tables_current. Qed.
Print Assumptions C90_tables.

(** [dependents] lists under [x] exactly the installed manifolds that have [x] among their inputs. *)
Theorem C90_dependents : forall E s x d, reachable E s ->
  (exists l, s_dependents s !! x = Some l /\ d ∈ l) <-> exists m, installed (s_log s) d = Some m /\ x ∈ m_inputs m.
Proof. exact EngineTables.tables_dependents. Qed.
Print Assumptions C90_dependents.

(** It lists none of them more often than the manifold lists the input: installing and uninstalling again and again leaves no double entries. *)
Theorem C90_count : forall E s x d m l, reachable E s -> installed (s_log s) d = Some m -> s_dependents s !! x = Some l ->
  count d l <= count x (m_inputs m).
Proof. exact EngineTables.tables_count. Qed.
Print Assumptions C90_count.

(** Its keys are the names that were ever an input of an accepted manifold: they stay when the manifold is uninstalled. *)
Theorem C90_keys : forall E s x, reachable E s -> is_Some (s_dependents s !! x) <-> ever_input (s_log s) x.
Proof. exact EngineTables.tables_keys. Qed.
Print Assumptions C90_keys.

(** An input listed twice. *)
Definition m_ui_db : manifold := mkManifold ["db"; "db"] 2 None None.
(** "api", which needs "db", runs; then it is uninstalled, and the entry for "db" stays, empty; then it is installed again with the input listed twice. *)
Example C90_example_up : let s := ex_state ex_env ls_again in reachable ex_env s /\
  installed (s_log s) "api" = Some m_api /\ s_dependents s !! "db" = Some ["api"] /\ s_dependents s !! "api" = None.
Proof. intros s. split; [apply ex_reach; ex_go|]. split_and!; ex_go. Qed.
Example C90_example_gone : let s := ex_state ex_env ls_uninst in reachable ex_env s /\
  installed (s_log s) "api" = None /\ s_current s !! "api" = None /\ s_dependents s !! "db" = Some [].
Proof. intros s. split; [apply ex_reach; ex_go|]. split_and!; ex_go. Qed.
Example C90_example_again : let s := ex_state ex_env (ls_uninst ++ [LInstall "api" m_ui_db]) in reachable ex_env s /\
  installed (s_log s) "api" = Some m_ui_db /\ s_dependents s !! "db" = Some ["api"; "api"] /\ count "db" (m_inputs m_ui_db) = 2.
Proof. intros s. split; [apply ex_reach; ex_go|]. split_and!; ex_go. Qed.
