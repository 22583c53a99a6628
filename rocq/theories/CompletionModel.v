(** * Model of completion
    Source: /repo/include/cli/cli.h 264-303, 544-629, 960-974. *)

From Verif Require Import Base FromStringModel MenuModel SessionModel.
Open Scope nat_scope.
Open Scope list_scope.

(** Outcomes: the completions, undefined behaviour ([isspace] of a negative [char]
    or a dangling current menu), recursion deeper than the fuel. *)
Inductive gres := GOk (l : list str) | GUB | GFuel.

(** [result.insert(result.end(), c.begin(), c.end())] *)
Definition g_app (a b : gres) : gres :=
  match a, b with
  | GOk x, GOk y => GOk (x ++ y)
  | GOk _, r => r
  | r, _ => r
  end.
Definition g_map (f : list str -> list str) (r : gres) : gres :=
  match r with GOk l => GOk (f l) | _ => r end.
(** The loops over the commands of a menu: cli.h:292-301, 615-620. *)
Fixpoint g_all (f : cmd -> gres) (l : list cmd) : gres :=
  match l with [] => GOk [] | k :: l' => g_app (f k) (g_all f l') end.

(** cli.h:269-274 [Command::GetCompletionRecursive] *)
Definition name_completion (c : cmd) (line : str) : list str :=
  if negb (cmd_en c) then [] else if starts_with line (cmd_name c) then [cmd_name c] else [].

Section Platform.
Context (P : platform).

(** [erase(begin(), find_if(begin(), end(), !isspace))]: cli.h:614, 963. *)
Fixpoint trim_left (s : str) : option str :=
  match s with
  | [] => Some []
  | c :: s' =>
      match c_isspace P c with
      | None => None
      | Some true => trim_left s'
      | Some false => Some s
      end
  end.

(** The completions of a menu seen from a neighbouring one: cli.h:570-578
    [GetCompletionRecursive] ([up] false) and 594-607 [GetCompletionWithParent] ([up]
    true), with 609-629 [GetCompletionRecursiveHelper] as the local function
    [inside].  The menu is the head of [ctx], its ancestors follow. *)
Fixpoint menu_completion (fuel : nat) (up : bool) (line : str) (ctx : list cmd) : gres :=
  match fuel with
  | O => GFuel
  | S n =>
      match ctx with
      | CMenu id name en desc pr kids :: anc =>
          let inside (prefix : str) :=
            match trim_left (skipn (length prefix) line) with
            | None => GUB
            | Some rest =>
                g_map (map (fun c => prefix ++ " "%char :: c))
                  (g_app
                     (g_all (fun k => match k with
                                      | CMenu _ _ _ _ _ _ => menu_completion n false rest (k :: ctx)
                                      | _ => GOk (name_completion k rest)
                                      end) kids)
                     (match anc with [] => GOk [] | _ => menu_completion n true rest anc end))
            end in
          if starts_with name line then inside name
          else if up && starts_with (lit "..") line then inside (lit "..")
          else GOk (name_completion (CMenu id name en desc pr kids) line)
      | _ => GOk []
      end
  end.

(** cli.h:544-553 [Menu::GetCompletions], 286-303 [cli::GetCompletions] *)
Definition menu_completions (fuel : nat) (line : str) (ctx : list cmd) : gres :=
  match ctx with
  | [] => GOk []
  | m :: anc =>
      g_app
        (g_all (fun k => match k with
                         | CMenu _ _ _ _ _ _ => menu_completion fuel false line (k :: ctx)
                         | _ => GOk (name_completion k line)
                         end) (cmd_kids m))
        (match anc with [] => GOk [] | _ => menu_completion fuel true line anc end)
  end.

(** [operator<] of [std::string]: compares bytes as [unsigned char]. *)
Fixpoint str_ltb (a b : str) : bool :=
  match a, b with
  | [], [] => false
  | [], _ :: _ => true
  | _ :: _, [] => false
  | x :: a', y :: b' =>
      if (N_of_ascii x <? N_of_ascii y)%N then true
      else if (N_of_ascii y <? N_of_ascii x)%N then false
      else str_ltb a' b'
  end.
(** [std::sort] (cli.h:969): some sorting algorithm; equal strings cannot be told
    apart, so all of them give the same result. *)
Fixpoint insert_sorted (x : str) (l : list str) : list str :=
  match l with
  | [] => [x]
  | y :: l' => if str_ltb y x then y :: insert_sorted x l' else x :: l
  end.
Definition sort (l : list str) : list str := fold_right insert_sorted [] l.
(** [std::unique] and [resize] (cli.h:970-971) *)
Fixpoint unique (l : list str) : list str :=
  match l with
  | x :: r => match r with
              | y :: _ => if str_eqb x y then unique r else x :: unique r
              | [] => [x]
              end
  | [] => []
  end.

(** cli.h:960-974 [CliSession::GetCompletions] *)
Definition get_completions (fuel : nat) (line : str) (w : world) : gres :=
  match trim_left line with
  | None => GUB
  | Some l =>
      g_map (fun v => unique (sort v))
        (g_app (menu_completions fuel l [global_menu])
               (match locate (w_cur w) [] (w_root w) with
                | None => GUB
                | Some ctx => menu_completions fuel l ctx
                end))
  end.
End Platform.
