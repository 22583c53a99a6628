(** * Model of [Exit] when memory runs out

    Source: /repo/include/cli/cli.h:338-347 [CliSession::Exit]: the exit actions run first
    (340-341), then the commands are copied (343) and stored (344); [exit] is set last (346).
    A [std::bad_alloc] of 343 or 344 leaves [Exit]; nothing is undone.

    Simplification: the exit actions have the memory they need (their exceptions are those of
    SessionModel.v).  What a [Store] that fails leaves is not specified by the standard
    library (a [std::deque] while copies are inserted): any storage. *)

From Verif Require Import Base StorageModel HistoryModel MenuModel SessionModel.
Open Scope nat_scope.
Open Scope list_scope.

(** [Exit] ended as [hres] says, or [bad_alloc] of the lines 343-344 left it. *)
Inductive xres := XRan (r : hres) | XThrew (w : world).

(** cli.h:338-347: [ok] for line 343; [left]: line 344 fails and leaves that storage *)
Definition exit_m (E : env) (ok : bool) (left : option storage) (w : world) : xres :=
  match h_bind (if e_has E KSesExit then run_hook E KSesExit [] w else HExc bad_function_call w) (fun w1 =>
        if e_has E KCliExit then run_hook E KCliExit [] w1 else HOk w1) with
  | HOk w2 =>
      if negb ok then XThrew w2                                        (* 343 *)
      else match get_commands (w_hist w2) with
           | None => XRan HUB
           | Some cmds =>
               match left with
               | Some st => XThrew (set_store st w2)                   (* 344 *)
               | None => XRan (HOk (set_exit true (set_store (st_store (w_store w2) cmds) w2)))
               end
           end
  | r => XRan r
  end.
