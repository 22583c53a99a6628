(** * Model of [Feed] when there is no memory for a line

    Source: /repo/include/cli/cli.h:912-941 [CliSession::Feed].  The words are
    cut (line 915) and the line is recorded (line 918) before the try block
    begins (line 920): a [std::bad_alloc] thrown there leaves [Feed].

    Simplification: what is inside the try block has the memory it needs (a
    failure there is an exception like those of user code, which the model of
    SessionModel.v has), and so have the lines fed by ['!']. *)

From Verif Require Import Base SplitModel HistoryModel MenuModel SessionModel AllocModel.
Open Scope nat_scope.
Open Scope list_scope.

(** [Feed] ran as [fres] says, or [bad_alloc] left it before the try block. *)
Inductive mres := MRan (r : fres) | MThrew (w : world).

Section Run.
Context (E : env).

(** cli.h:912-941 [Feed]: [ok] for line 915, [ok'] for line 918 *)
Definition feed_m (ok ok' : bool) (fuel : nat) (line : str) (w : world) : mres :=
  if negb ok then MThrew w else
  match split line with
  | Some (_ :: _) =>
      match new_command_m ok' (w_hist w) line with
      | AThrew h => MThrew (set_hist h w)
      | AUB => MRan FUB
      | ADone h => MRan (feed E fuel line w)  (* recorded, goes on as SessionModel.v has it *)
      end
  | _ => MRan (feed E fuel line w)
  end.
End Run.
