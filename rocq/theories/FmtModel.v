(** * What a session prints, as insertions into a stream with any formatting
    Sources: /repo/include/cli/cli.h 212-226, 525-538, 738-755, 798-807, 846-855, 912-958;
    detail/history.h 112-122; detail/commandprocessor.h 141-146; colorprofile.h; rang.h.
    The other models have the texts of a stream with the default formatting;
    a command may leave another one.  The locale is "C", the stream is in a good state. *)

From Verif Require Import Base HistoryModel MenuModel TerminalModel SessionModel RangModel.
Open Scope nat_scope.
Open Scope list_scope.

(** An insertion: a string or a character, a [std::size_t], an [int], or [std::flush]. *)
Inductive piece := InsStr (s : str) | InsSize (n : N) | InsInt (n : N) | InsFlush.
(** Sign and digits of an unsigned number: there is no sign. *)
Definition no_sign (f : fmt) : fmt :=
  mkFmt (f_base f) (f_showbase f) false (f_upper f) (f_width f) (f_fill f) (f_adjust f).
Definition put_piece (f : fmt) (p : piece) : str * fmt :=
  match p with
  | InsStr s => (put_str f s, no_width f)
  | InsSize n => (put_int (no_sign f) n, no_width f)
  | InsInt n => (put_int f n, no_width f)
  | InsFlush => ([], f)
  end.
Fixpoint put_all (f : fmt) (l : list piece) : str * fmt :=
  match l with
  | [] => ([], f)
  | p :: l' => let (a, f1) := put_piece f p in let (b, f2) := put_all f1 l' in (a ++ b, f2)
  end.

(** history.h:112-122 [Show] *)
Fixpoint show_lines (h : history) (n : nat) : option (list piece) :=
  match n with
  | O => Some []
  | S j =>
      match index_to_id h (Z.of_nat j), nth_error (h_buf h) j, show_lines h j with
      | Some id, Some s, Some rest => Some (InsSize (Z.to_N id) :: InsStr tab :: InsStr s :: InsStr nl :: rest)
      | _, _, _ => None
      end
  end.
Definition show_pieces (h : history) : option (list piece) :=
  match show_lines h (length (h_buf h)) with
  | None => None
  | Some l => Some (InsStr nl :: l ++ [InsStr nl; InsFlush])
  end.

(** cli.h:534-538, 798-807, 846-855 [Help] of a command; 738-755 *)
Definition pdesc_pieces (l : list str) : list piece := flat_map (fun s => [InsStr (lit " <"); InsStr s; InsStr (lit ">")]) l.
Definition help_pieces (c : cmd) : list piece :=
  if negb (cmd_en c) then [] else
  match c with
  | CMenu _ name _ desc _ _ => [InsStr (lit " - "); InsStr name; InsStr (nl ++ tab); InsStr desc; InsStr nl]
  | CFn _ name _ desc pars pdesc _ =>
      [InsStr (lit " - "); InsStr name]
        ++ (match pdesc with [] => flat_map (fun p => [InsStr (lit " "); InsStr (type_desc p)]) pars | _ => [] end)
        ++ pdesc_pieces pdesc ++ [InsStr (nl ++ tab); InsStr desc; InsStr nl]
  | CFree _ name _ desc pdesc _ =>
      [InsStr (lit " - "); InsStr name]
        ++ (match pdesc with [] => [InsStr (lit " "); InsStr (lit "<list of strings>")] | _ => [] end)
        ++ pdesc_pieces pdesc ++ [InsStr (nl ++ tab); InsStr desc; InsStr nl]
  end.
(** cli.h:525-532 [MainHelp], 953-958 [Help] *)
Definition main_help_pieces (ctx : list cmd) : list piece :=
  match ctx with
  | [] => []
  | m :: anc =>
      if negb (cmd_en m) then []
      else flat_map help_pieces (cmd_kids m) ++ match anc with [] => [] | p :: _ => help_pieces p end
  end.
Definition help_all (w : world) : option (list piece) :=
  match locate (w_cur w) [] (w_root w) with
  | None => None
  | Some ctx => Some (InsStr (lit "Commands available:" ++ nl) :: main_help_pieces [global_menu] ++ main_help_pieces ctx)
  end.

(** cli.h:212-226, 935-940; commandprocessor.h:142-146 *)
Definition wrong_pieces (line : str) : list piece := [InsStr (lit "wrong command: "); InsStr line; InsStr nl].
Definition except_pieces (what : str) : list piece := [InsStr what; InsStr nl].
Definition unknown_pieces (line : str) : list piece :=
  [InsStr (lit "Cli. Unknown exception caught handling command line """); InsStr line; InsStr (lit """" ++ nl)].
Definition items_pieces (l : list str) : list piece := [InsStr nl; InsStr (flat_map (fun c => tab ++ c) l); InsStr nl].

(** rang.h:250-255 [setColor]; cli.h:943-951 [Prompt] with colorprofile.h:48-58 *)
Definition color_pieces (n : N) : list piece := [InsStr ["027"; "["]%char; InsInt n; InsStr ["m"%char]].
Definition prompt_pieces (tty color force : bool) (w : world) : option (list piece) :=
  if w_exit w then Some []
  else match prompt_text w with
       | None => None
       | Some p =>
           let force' := color || force in
           Some ((if color then color_pieces 32 ++ color_pieces 1 else []) ++ [InsStr p]
                 ++ (if force' || tty then color_pieces 0 else []) ++ [InsStr (lit "> "); InsFlush])
       end.
