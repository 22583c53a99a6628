(** * Model of menus with commands of any class
    Source: /repo/include/cli/cli.h 249-303 [Command], 446-701 [Menu].  SessionModel.v has
    the classes of the library only; here a command that is not a menu is any object
    of a class derived from [Command]. *)

From Verif Require Import Base FromStringModel MenuModel SessionModel CompletionModel.
Open Scope nat_scope.
Open Scope list_scope.

Section Virtual.
(** The state of the program, and [CliSession::Current] (cli.h:324). *)
Context {W : Type} (enter : nat -> W -> W).

(** Outcomes of [Exec], as [eres]. *)
Inductive vres := VDone (found : bool) (w : W) | VExc (x : exn) (w : W) | VUB | VFuel.
Definition v_bind (r : vres) (f : W -> vres) : vres := match r with VDone false w => f w | _ => r end.

(** cli.h:261-274: the virtual functions [Exec], [Help], [GetCompletionRecursive].  [Exec] may do
    anything; if it changes a menu and returns false, the loops below use invalid
    iterators: it is taken to return [VUB] then.  The other two are constant: what they give
    when they are called.  [Enable] and [Disable] are not called by menus. *)
Record object := mkObj { o_exec : list str -> W -> vres; o_help : str; o_comp : str -> list str }.
(** [linked]: inserted as a menu (cli.h:490-497); not linked: inserted as a command
    (cli.h:482-488) or in no menu, [parent] being null. *)
Inductive vcmd :=
| VObj (o : object)
| VMenu (id : nat) (name : str) (en : bool) (desc prompt : str) (linked : bool) (kids : list vcmd).
Definition v_kids (c : vcmd) : list vcmd := match c with VMenu _ _ _ _ _ _ k => k | VObj _ => [] end.
Definition v_en (c : vcmd) : bool := match c with VMenu _ _ e _ _ _ _ => e | VObj _ => false end.

(** A menu is given with its ancestors, as far as [parent] leads. *)
Definition below (k : vcmd) (ctx : list vcmd) : list vcmd :=
  match k with VMenu _ _ _ _ _ true _ => k :: ctx | _ => [k] end.

(** [for (auto& cmd: *cmds) if (cmd->Exec(...)) return true;] *)
Fixpoint v_try (f : vcmd -> W -> vres) (l : list vcmd) (w : W) : vres :=
  match l with [] => VDone false w | k :: l' => v_bind (f k w) (v_try f l') end.
(** cli.h:499-507, 654-678 [Exec], [ExecParent], [HandleCommand] of a menu *)
Fixpoint v_handle (toks : list str) (up : bool) (ctx : list vcmd) (w : W) {struct toks} : vres :=
  match ctx with
  | VMenu id name en _ _ _ kids :: anc =>
      if negb en then VDone false w
      else match toks with
           | [] => VUB
           | t :: rest =>
               if str_eqb name t || (up && str_eqb (lit "..") t) then
                 match rest with
                 | [] => VDone true (enter id w)
                 | _ =>
                     v_bind
                       (v_try (fun k w1 => match k with
                                           | VObj o => o_exec o rest w1
                                           | VMenu _ _ _ _ _ _ _ => v_handle rest false (below k ctx) w1
                                           end) kids w)
                       (fun w1 => match anc with [] => VDone false w1 | _ => v_handle rest true anc w1 end)
                 end
               else VDone false w
           end
  | _ => VDone false w
  end.
(** cli.h:509-518 [ScanCmds] *)
Definition v_scan (toks : list str) (ctx : list vcmd) (w : W) : vres :=
  match ctx with
  | [] => VDone false w
  | m :: anc =>
      if negb (v_en m) then VDone false w
      else v_bind
             (v_try (fun k w1 => match k with
                                 | VObj o => o_exec o toks w1
                                 | VMenu _ _ _ _ _ _ _ => v_handle toks false (below k ctx) w1
                                 end) (v_kids m) w)
             (fun w1 => match anc with [] => VDone false w1 | _ => v_handle toks true anc w1 end)
  end.

(** cli.h:525-538 [Help] of a menu, [MainHelp] *)
Definition v_help (c : vcmd) : str :=
  match c with
  | VObj o => o_help o
  | VMenu _ name en desc _ _ _ => if negb en then [] else lit " - " ++ name ++ nl ++ tab ++ desc ++ nl
  end.
Definition v_main_help (ctx : list vcmd) : str :=
  match ctx with
  | [] => []
  | m :: anc => if negb (v_en m) then [] else flat_map v_help (v_kids m) ++ match anc with [] => [] | p :: _ => v_help p end
  end.

Section Platform.
Context (P : platform).
Fixpoint v_all (f : vcmd -> gres) (l : list vcmd) : gres :=
  match l with [] => GOk [] | k :: l' => g_app (f k) (v_all f l') end.
(** cli.h:570-629, as [menu_completion] in CompletionModel.v *)
Fixpoint v_completion (fuel : nat) (up : bool) (line : str) (ctx : list vcmd) : gres :=
  match fuel with
  | O => GFuel
  | S n =>
      match ctx with
      | VMenu _ name en _ _ _ kids :: anc =>
          let inside (prefix : str) :=
            match trim_left P (skipn (length prefix) line) with
            | None => GUB
            | Some rest =>
                g_map (map (fun c => prefix ++ " "%char :: c))
                  (g_app
                     (v_all (fun k => match k with
                                      | VObj o => GOk (o_comp o rest)
                                      | VMenu _ _ _ _ _ _ _ => v_completion n false rest (below k ctx)
                                      end) kids)
                     (match anc with [] => GOk [] | _ => v_completion n true rest anc end))
            end in
          if starts_with name line then inside name
          else if up && starts_with (lit "..") line then inside (lit "..")
          else GOk (if negb en then [] else if starts_with line name then [name] else [])
      | _ => GOk []
      end
  end.
(** cli.h:544-553, 286-303 *)
Definition v_completions (fuel : nat) (line : str) (ctx : list vcmd) : gres :=
  match ctx with
  | [] => GOk []
  | m :: anc =>
      g_app
        (v_all (fun k => match k with
                         | VObj o => GOk (o_comp o line)
                         | VMenu _ _ _ _ _ _ _ => v_completion fuel false line (below k ctx)
                         end) (v_kids m))
        (match anc with [] => GOk [] | _ => v_completion fuel true line anc end)
  end.
End Platform.
End Virtual.
Arguments vres : clear implicits.
Arguments object : clear implicits.
Arguments vcmd : clear implicits.

(** ** The classes of the library *)
Definition of_eres (r : eres) : vres world :=
  match r with EDone b w => VDone b w | EExc x w => VExc x w | EUB => VUB | EFuel => VFuel end.
(** [VariadicFunctionCommand] and [FreeformCommand]; menus are inserted as such, and the root
    is in no menu *)
Section Library.
Context (E : env) (bi : hid -> list value -> world -> hres).
Fixpoint virtual (linked : bool) (c : cmd) : vcmd world :=
  match c with
  | CMenu id name en desc pr kids => VMenu id name en desc pr linked (map (virtual true) kids)
  | _ => VObj (mkObj (fun toks w => of_eres (exec_leaf E bi c toks w)) (help_line c) (name_completion c))
  end.
(** A menu with its ancestors, the last being the root. *)
Fixpoint virtuals (ctx : list cmd) : list (vcmd world) :=
  match ctx with [] => [] | [r] => [virtual false r] | c :: anc => virtual true c :: virtuals anc end.
End Library.
