(** * Specification of sessions *)

From Verif Require Import Base SplitModel FromStringModel HistoryModel HistorySpec StorageModel MenuModel SessionModel ResolveSpec.
Open Scope nat_scope.
Open Scope list_scope.

(** ** The menu tree *)

(** Ids of the commands of a tree. *)
Fixpoint ids (c : cmd) : list nat :=
  cmd_id c :: match c with CMenu _ _ _ _ _ kids => flat_map ids kids | _ => [] end.
Definition unique_ids (c : cmd) : Prop := NoDup (ids c).

Definition is_menu (c : cmd) : Prop := exists i n e d p k, c = CMenu i n e d p k.

(** [chain root ctx]: [ctx] leads from a menu up to the root. *)
Inductive chain (root : cmd) : list cmd -> Prop :=
| chain_root : is_menu root -> chain root [root]
| chain_sub k p anc : chain root (p :: anc) -> In k (cmd_kids p) -> is_menu k -> chain root (k :: p :: anc).

(** The session is in the menu at the head of [ctx]. *)
Definition in_menu (w : world) (ctx : list cmd) : Prop :=
  chain (w_root w) ctx /\ exists m anc, ctx = m :: anc /\ cmd_id m = w_cur w.

(** States of a session: ids are unique, [w_next] is free, the current menu is in
    the tree. *)
Definition sound (w : world) : Prop :=
  unique_ids (w_root w) /\ Forall (fun i => i < w_next w) (ids (w_root w)).
Definition live (w : world) : Prop := exists ctx, in_menu w ctx.

(** A flat listing of the tree: each command with the ids of the menus around it
    (innermost first). *)
Inductive label :=
| LFn (id : nat) (name : str) (en : bool) (desc : str) (pars : list ptype) (pdesc : list str) (h : hid)
| LFree (id : nat) (name : str) (en : bool) (desc : str) (pdesc : list str) (h : hid)
| LMenu (id : nat) (name : str) (en : bool) (desc : str) (prompt : str).
Fixpoint flat (above : list nat) (c : cmd) : list (list nat * label) :=
  match c with
  | CFn i n e d p pd h => [(above, LFn i n e d p pd h)]
  | CFree i n e d pd h => [(above, LFree i n e d pd h)]
  | CMenu i n e d pr kids => (above, LMenu i n e d pr) :: flat_map (flat (i :: above)) kids
  end.
Definition label_id (l : label) : nat :=
  match l with LFn i _ _ _ _ _ _ | LFree i _ _ _ _ _ | LMenu i _ _ _ _ => i end.
Definition label_set (b : bool) (l : label) : label :=
  match l with
  | LFn i n _ d p pd h => LFn i n b d p pd h
  | LFree i n _ d pd h => LFree i n b d pd h
  | LMenu i n _ d pr => LMenu i n b d pr
  end.

(** Changing the listing.  Enabling or disabling a command changes its entry;
    removing one drops its entry and those below it (the root cannot be removed);
    inserting one adds its entries behind everything in the menu. *)
Definition flip (id : nat) (b : bool) (x : list nat * label) : list nat * label :=
  if Nat.eqb (label_id (snd x)) id then (fst x, label_set b (snd x)) else x.
Definition untouched (id : nat) (x : list nat * label) : bool :=
  negb (existsb (Nat.eqb id) (label_id (snd x) :: fst x)).
Definition below (id : nat) (x : list nat * label) : bool := existsb (Nat.eqb id) (fst x).
Definition is_menu_entry (id : nat) (x : list nat * label) : bool :=
  match snd x with LMenu i _ _ _ _ => Nat.eqb i id | _ => false end.
Fixpoint take_while {A} (f : A -> bool) (l : list A) : list A :=
  match l with [] => [] | x :: r => if f x then x :: take_while f r else [] end.
Fixpoint drop_while {A} (f : A -> bool) (l : list A) : list A :=
  match l with [] => [] | x :: r => if f x then drop_while f r else l end.
Fixpoint add_to (pid : nat) (sub : list nat -> list (list nat * label)) (l : list (list nat * label)) : list (list nat * label) :=
  match l with
  | [] => []
  | x :: r =>
      if is_menu_entry pid x then x :: take_while (below pid) r ++ sub (pid :: fst x) ++ drop_while (below pid) r
      else x :: add_to pid sub r
  end.
Definition listing_op (s : list (list nat * label) * nat) (o : op) : list (list nat * label) * nat :=
  let (l, n) := s in
  match o with
  | OOut _ | OBroadcast _ => s
  | OEnable id => (map (flip id true) l, n)
  | ODisable id => (map (flip id false) l, n)
  | ORemove id =>
      (match l with x :: _ => if Nat.eqb (label_id (snd x)) id then l else filter (untouched id) l | [] => [] end, n)
  | OInsert pid c => let (c', n') := relabel n c in (add_to pid (fun up => flat up c') l, n')
  end.

(** The same command with other ids. *)
Inductive renumbered : cmd -> cmd -> Prop :=
| rn_fn i j n e d p pd h : renumbered (CFn i n e d p pd h) (CFn j n e d p pd h)
| rn_free i j n e d pd h : renumbered (CFree i n e d pd h) (CFree j n e d pd h)
| rn_menu i j n e d p ks ks' : Forall2 renumbered ks ks' -> renumbered (CMenu i n e d p ks) (CMenu j n e d p ks').

(** The tree without its disabled commands. *)
Fixpoint prune (c : cmd) : cmd :=
  match c with
  | CMenu i n e d pr kids => CMenu i n e d pr (flat_map (fun k => if cmd_en k then [prune k] else []) kids)
  | _ => c
  end.

(** ** Events *)
Definition is_call (e : event) : bool := match e with EvCall _ _ _ => true | _ => false end.
Definition calls (evs : list event) : nat := length (filter is_call evs).

(** From [w] to [w'] (or to the outcome) events were added, at most [n] of them calls. *)
Definition grows (n : nat) (w w' : world) : Prop :=
  exists evs, w_trace w' = w_trace w ++ evs /\ calls evs <= n.
Definition f_grows (n : nat) (w : world) (r : fres) : Prop :=
  match r with FOk w' | FExc _ w' => grows n w w' | _ => True end.

(** The state left behind satisfies [P]. *)
Definition f_inv (P : world -> Prop) (r : fres) : Prop := match r with FOk w | FExc _ w => P w | _ => True end.

Section Env.
Context (E : env).

(** Lines that recall a history entry. *)
Definition recall (line : str) : Prop :=
  exists a n, split line = Some [lit "!"; a] /\ convert E (PInt UInt) a = COk (VInt n).
Definition no_recalls (w : world) : Prop := forall s, In s (h_buf (w_hist w)) -> ~ recall s.

(** User code that does not let a [std::bad_cast] escape. *)
Definition handlers_no_bad_cast : Prop :=
  forall sid h args tr s, ur_end (e_handler E sid h args tr) <> UThrow (XBadCast s).
Definition hooks_no_bad_cast : Prop :=
  forall sid k args tr s, ur_end (e_hook E sid k args tr) <> UThrow (XBadCast s).

(** User code that removes only commands of the set [R]. *)
Definition removes_only (R : nat -> Prop) (r : uresult) : Prop :=
  forall id, In (ORemove id) (ur_ops r) -> R id.
Definition code_removes_only (R : nat -> Prop) : Prop :=
  (forall sid h args tr, removes_only R (e_handler E sid h args tr)) /\
  (forall sid k args tr, removes_only R (e_hook E sid k args tr)).

(** ** What feeding a line means *)

(** Exceptions are reported once: by the user's handler or by a message. *)
Definition report (line : str) (x : exn) (w : world) : fres :=
  match x with
  | XOther => FOk (out (lit "Cli. Unknown exception caught handling command line """ ++ line ++ lit """" ++ nl) w)
  | XBadCast what | XStd what =>
      if e_has E KExcept then
        let w1 := log (EvHook (w_sid w) KExcept [line; what]) w in
        let r := e_hook E (w_sid w) KExcept [line; what] (w_trace w1) in
        match ur_end r with
        | UReturn => FOk (apply_ops (ur_ops r) w1)
        | UThrow y => FExc y (apply_ops (ur_ops r) w1)
        end
      else FOk (out (what ++ nl) w)
  end.

(** User code runs after the call was logged, and its operations take effect in
    order; what it throws is reported. *)
Definition after_call (line : str) (u : nat) (vs : list value) (w : world) : fres :=
  let w1 := log (EvCall (w_sid w) u vs) w in
  let r := e_handler E (w_sid w) u vs (w_trace w1) in
  let w2 := apply_ops (ur_ops r) w1 in
  match ur_end r with UReturn => FOk w2 | UThrow x => report line x w2 end.

(** Reporting a line that means nothing. *)
Definition reject (line : str) (w : world) : fres :=
  if e_has E KWrong then
    let w1 := log (EvHook (w_sid w) KWrong [line]) w in
    let r := e_hook E (w_sid w) KWrong [line] (w_trace w1) in
    let w2 := apply_ops (ur_ops r) w1 in
    match ur_end r with UReturn => FOk w2 | UThrow x => report line x w2 end
  else FOk (out (lit "wrong command: " ++ line ++ nl) w).

(** [line] has the words [toks], and recording it in the history leads to [w0]. *)
Definition recorded (line : str) (w : world) (toks : list str) (w0 : world) : Prop :=
  split line = Some toks /\ toks <> [] /\
  exists h, new_command (w_hist w) line = Some h /\ w0 = set_hist h w.
End Env.

(** Feeding several lines. *)
Fixpoint feeds (E : env) (fuel : nat) (lines : list str) (w : world) : fres :=
  match lines with
  | [] => FOk w
  | l :: ls => match feed E fuel l w with FOk w' => feeds E fuel ls w' | r => r end
  end.

(** ** Absence of undefined behaviour *)

(** Trees whose functions are the user's. *)
Fixpoint user_tree (c : cmd) : Prop :=
  match c with
  | CFn _ _ _ _ _ _ h | CFree _ _ _ _ _ h => exists n, h = HUser n
  | CMenu _ _ _ _ _ kids => fold_right (fun k P => user_tree k /\ P) True kids
  end.

(** Commands in [R] may be removed: they are not menus, and new commands never get
    their ids. *)
Definition removable (R : nat -> Prop) (w : world) : Prop :=
  forall id, R id -> id < w_next w /\ forall m anc, chain (w_root w) (m :: anc) -> cmd_id m <> id.

(** User code that removes only commands in [R], inserts only user commands, and
    lets no [std::bad_cast] escape. *)
Definition tame_op (R : nat -> Prop) (o : op) : Prop :=
  match o with ORemove id => R id | OInsert _ c => user_tree c | _ => True end.
Definition tame (E : env) (R : nat -> Prop) : Prop :=
  (forall sid h args tr, Forall (tame_op R) (ur_ops (e_handler E sid h args tr))) /\
  (forall sid k args tr, Forall (tame_op R) (ur_ops (e_hook E sid k args tr))) /\
  handlers_no_bad_cast E /\ hooks_no_bad_cast E /\ strict (e_plat E) = false.

(** Lines whose characters the ctype functions accept. *)
Definition legible (E : env) (line : str) : Prop :=
  char_signed (e_plat E) = false \/ Forall (fun c => (N_of_ascii c < 128)%N) line.

Definition healthy (E : env) (R : nat -> Prop) (size : nat) (w : world) : Prop :=
  sound w /\ live w /\ removable R w /\ user_tree (w_root w) /\
  reachable size (w_hist w) /\ Forall (legible E) (h_buf (w_hist w)) /\ no_recalls E w.

(** Some command was recorded or loaded. *)
Definition used (w : world) : Prop := committed (w_hist w) <> [] \/ (0 < h_oldest (w_hist w))%Z.

(** [r] is a normal return or an exception, in a state satisfying [P]: no undefined
    behaviour, no unbounded recursion. *)
Definition f_safe (P : world -> Prop) (r : fres) : Prop :=
  match r with FOk w => P w | FExc _ w => P w | FUB => False | FFuel => False end.

(** ** Help *)
(** The C++ name of a parameter type; other types than the built-in ones show what the user
    describes them with. *)
Definition cpp_name (p : ptype) : str :=
  let uns t := lit "unsigned " ++ t in
  match p with
  | PChar => lit "char" | PInt SChar => lit "signed char" | PInt UChar => uns (lit "char")
  | PInt Short => lit "short" | PInt UShort => uns (lit "short")
  | PInt Int => lit "int" | PInt UInt => uns (lit "int")
  | PInt Long => lit "long" | PInt ULong => uns (lit "long")
  | PInt LLong => lit "long long" | PInt ULLong => uns (lit "long long")
  | PReal RFloat => lit "float" | PReal RDouble => lit "double" | PReal RLongDouble => lit "long double"
  | PBool => lit "bool" | PString => lit "string"
  | PCustom _ _ => []
  end.
Definition type_word (p : ptype) : str :=
  match p with PCustom _ d => d | _ => lit "<" ++ cpp_name p ++ lit ">" end.
Definition param_words (pars : list ptype) (pdesc : list str) : list str :=
  match pdesc with
  | [] => map type_word pars
  | _ => map (fun s => lit "<" ++ s ++ lit ">") pdesc
  end.
Definition spaced (l : list str) : str := concat (map (cons " "%char) l).
Definition help_entry (c : cmd) : str :=
  let '(words, desc) :=
    match c with
    | CFn _ n _ d pars pdesc _ => (n :: param_words pars pdesc, d)
    | CFree _ n _ d pdesc _ =>
        (n :: match pdesc with [] => [lit "<list of strings>"] | _ => param_words [] pdesc end, d)
    | CMenu _ n _ d _ _ => ([n], d)
    end in
  spaced (lit "-" :: words) ++ nl ++ tab ++ desc ++ nl.

(** The text printed by [help] in the menu at the head of [ctx]. *)
Definition help_screen (ctx : list cmd) : str :=
  lit "Commands available:" ++ nl
  ++ lit " - help" ++ nl ++ tab ++ lit "This help message" ++ nl
  ++ lit " - exit" ++ nl ++ tab ++ lit "Quit the session" ++ nl
  ++ lit " - history" ++ nl ++ tab ++ lit "Show the history" ++ nl
  ++ lit " - ! <history entry index>" ++ nl ++ tab ++ lit "Exec a command by index in the history" ++ nl
  ++ match ctx with
     | m :: anc =>
         if cmd_en m then
           concat (map help_entry (filter cmd_en (cmd_kids m ++ firstn 1 anc)))
         else []
     | [] => []
     end.

(** ** Exiting and entering *)
(** Events that are not calls of user code. *)
Definition quiet (e : event) : Prop := match e with EvCall _ _ _ | EvHook _ _ _ => False | _ => True end.

(** What a hook did: it was called, its output followed, and it returned or threw. *)
Definition hook_ran (E : env) (k : hook) (w w' : world) (r : uend) : Prop :=
  e_has E k = true /\
  (exists evs, w_trace w' = w_trace w ++ EvHook (w_sid w) k [] :: evs /\ Forall quiet evs) /\
  r = ur_end (e_hook E (w_sid w) k [] (w_trace w ++ [EvHook (w_sid w) k []])) /\
  w_store w' = w_store w /\ w_hist w' = w_hist w /\ w_cur w' = w_cur w /\ w_exit w' = w_exit w /\ w_sid w' = w_sid w.
Definition hook_ran_or_absent (E : env) (k : hook) (w w' : world) (r : uend) : Prop :=
  hook_ran E k w w' r \/ (e_has E k = false /\ w' = w /\ r = UReturn).

(** ** Navigation: [step ctx w ctx']: the word [w] leads from one menu to a
    neighbouring one, and nothing else in the menu (nor the parent) has that name. *)
Definition named (w : str) (c : cmd) : Prop := cmd_name c = w.
Inductive nav_step : list cmd -> str -> list cmd -> Prop :=
| nav_down m anc k l1 l2 w :
    cmd_en m = true -> cmd_kids m = l1 ++ k :: l2 -> is_menu k -> cmd_en k = true -> cmd_name k = w ->
    Forall (fun c => cmd_name c <> w) (l1 ++ l2) ->
    (forall p rest, anc = p :: rest -> cmd_name p <> w /\ w <> lit "..") ->
    nav_step (m :: anc) w (k :: m :: anc)
| nav_up m p anc w :
    cmd_en m = true -> is_menu p -> cmd_en p = true -> w = cmd_name p \/ w = lit ".." ->
    Forall (fun c => cmd_name c <> w) (cmd_kids m) ->
    nav_step (m :: p :: anc) w (p :: anc).
Inductive nav : list cmd -> list str -> list cmd -> Prop :=
| nav_nil ctx : nav ctx [] ctx
| nav_cons ctx w ctx1 ws ctx2 : nav_step ctx w ctx1 -> nav ctx1 ws ctx2 -> nav ctx (w :: ws) ctx2.

(** The names of the global commands. *)
Definition global_names : list str := [lit "help"; lit "exit"; lit "history"; lit "!"].

(** The prompt text of a menu. *)
Definition menu_prompt (c : cmd) : option str := match c with CMenu _ _ _ _ p _ => Some p | _ => None end.
