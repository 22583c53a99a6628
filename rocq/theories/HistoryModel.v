(** * Model of the command history
    Source: /repo/include/cli/detail/history.h, class [History]. *)

From Verif Require Import Base.

(** history.h:190-196 data members.  [h_buf] is the deque, newest first.
    [h_browse] is [mode == Mode::browsing].  Counters that could only wrap after
    2^64 commands ([commands], [idOfOldest]) are unbounded. *)
Record history := mkHistory {
  h_max    : nat;
  h_buf    : list str;
  h_cur    : nat;
  h_cmds   : nat;
  h_browse : bool;
  h_oldest : Z
}.

(** history.h:49 constructor *)
Definition history_init (size : nat) : history := mkHistory size [] 0 0 false 0.

Definition with_buf (h : history) (b : list str) : history :=
  mkHistory (h_max h) b (h_cur h) (h_cmds h) (h_browse h) (h_oldest h).

(** [buffer[i] = x]; [None]: out of bounds, undefined behaviour. *)
Fixpoint set_nth (i : nat) (x : str) (b : list str) : option (list str) :=
  match b, i with
  | [], _ => None
  | _ :: b', O => Some (x :: b')
  | y :: b', S i' => option_map (cons y) (set_nth i' x b')
  end.

(** history.h:180-188 [Insert] *)
Definition insert (h : history) (item : str) : history :=
  let b := item :: h_buf h in
  if Nat.ltb (h_max h) (length b)
  then mkHistory (h_max h) (removelast b) (h_cur h) (h_cmds h) (h_browse h) (h_oldest h + 1)
  else with_buf h b.

(** history.h:55-73 [NewCommand]; [None] is undefined behaviour (write to
    [buffer[0]] of an empty buffer). *)
Definition new_command (h : history) (item : str) : option history :=
  let h1 := mkHistory (h_max h) (h_buf h) 0 (S (h_cmds h)) (h_browse h) (h_oldest h) in
  let result :=
    if h_browse h1 then
      match h_buf h1 with
      | _ :: ((y :: _) as b') =>
          if str_eqb y item then Some (with_buf h1 b')
          else option_map (with_buf h1) (set_nth (h_cur h1) item (h_buf h1))
      | b => option_map (with_buf h1) (set_nth (h_cur h1) item b)
      end
    else
      match h_buf h1 with
      | y :: _ => if str_eqb y item then Some h1 else Some (insert h1 item)
      | [] => Some (insert h1 item)
      end in
  match result with
  | None => None
  | Some h2 => Some (mkHistory (h_max h2) (h_buf h2) (h_cur h2) (h_cmds h2) false (h_oldest h2))
  end.

(** history.h:80-98 [Previous]: the text shown and the new state; [None] is an
    out of bounds access. *)
Definition previous (h : history) (line : str) : option (str * history) :=
  let h1 :=
    if h_browse h then
      match set_nth (h_cur h) line (h_buf h) with
      | None => None
      | Some b =>
          let cur := if Nat.eqb (h_cur h) (length b - 1) then h_cur h else S (h_cur h) in
          Some (mkHistory (h_max h) b cur (h_cmds h) true (h_oldest h))
      end
    else
      let h2 := insert h line in
      let cur := if Nat.ltb 1 (length (h_buf h2)) then 1 else 0 in
      Some (mkHistory (h_max h2) (h_buf h2) cur (h_cmds h2) true (h_oldest h2)) in
  match h1 with
  | None => None
  | Some h1 => match nth_error (h_buf h1) (h_cur h1) with
               | None => None
               | Some s => Some (s, h1)
               end
  end.

(** history.h:101-109 [Next] *)
Definition next (h : history) : option (str * history) :=
  match h_buf h, h_cur h with
  | [], _ => Some ([], h)
  | _, O => Some ([], h)
  | b, S c =>
      let h1 := mkHistory (h_max h) b c (h_cmds h) (h_browse h) (h_oldest h) in
      match nth_error b c with None => None | Some s => Some (s, h1) end
  end.

(** [size_t] subtraction: wraps below zero. *)
Definition usub (a b : Z) : Z := if (a <? b)%Z then (a - b + 2 ^ 64)%Z else (a - b)%Z.

Definition h_size (h : history) : Z := Z.of_nat (length (h_buf h)).

(** history.h:166-171 [IndexToId]; [None]: throws [std::out_of_range]. *)
Definition index_to_id (h : history) (index : Z) : option Z :=
  if (usub (h_oldest h + h_size h) 1 <? index)%Z then None
  else Some (usub (usub (h_oldest h + h_size h) 1) index).

(** history.h:173-178 [IdToIndex] *)
Definition id_to_index (h : history) (id : Z) : option Z :=
  if (id <? h_oldest h)%Z || (usub (h_oldest h + h_size h) 1 <? id)%Z then None
  else Some (usub (usub (h_oldest h + h_size h) 1) id).

(** Outcome of [At]. *)
Inductive at_res := AtOk (s : str) | AtExc (* std::out_of_range *) | AtUB.

(** history.h:149-154 [At]; [buffer[index]] is undefined behaviour out of range. *)
Definition at_id (h : history) (id : Z) : at_res :=
  match id_to_index h id with
  | None => AtExc
  | Some i => if (i <? h_size h)%Z
              then match nth_error (h_buf h) (Z.to_nat i) with
                   | None => AtUB
                   | Some s => AtOk s
                   end
              else AtUB
  end.

(** history.h:156-160 [ForgetLatest]; [None]: [pop_front] on an empty deque. *)
Definition forget_latest (h : history) : option history :=
  match h_buf h with [] => None | _ :: b => Some (with_buf h b) end.

(** history.h:112-122 [Show]: the loop prints indices size-1 down to 0; [n] is
    the number of indices left.  [None]: [IndexToId] throws. *)
Fixpoint show_loop (h : history) (n : nat) : option str :=
  match n with
  | O => Some []
  | S j =>
      match index_to_id h (Z.of_nat j), nth_error (h_buf h) j, show_loop h j with
      | Some id, Some s, Some rest =>
          Some (print_N (Z.to_N id) ++ ["009"%char] ++ s ++ ["010"%char] ++ rest)
      | _, _, _ => None
      end
  end.
Definition show (h : history) : option str :=
  match show_loop h (length (h_buf h)) with
  | None => None
  | Some s => Some (["010"%char] ++ s ++ ["010"%char])
  end.

(** history.h:125-129 [LoadCommands] *)
Definition load_commands (h : history) (cmds : list str) : history :=
  fold_left insert cmds h.

(** history.h:132-147 [GetCommands]; [None]: iterator out of range. *)
Definition get_commands (h : history) : option (list str) :=
  if h_browse h then
    match h_buf h with
    | [] => None
    | _ :: b => Some (rev (firstn (Nat.min (h_cmds h) (length (h_buf h) - 1)) b))
    end
  else Some (rev (firstn (Nat.min (h_cmds h) (length (h_buf h))) (h_buf h))).
