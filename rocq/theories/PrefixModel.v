(** * Model of the longest common prefix
    Source: /repo/include/cli/detail/commonprefix.h. *)

From Verif Require Import Base.

(** [std::min_element] with [s1.size() < s2.size()] (commonprefix.h:49-53): the
    first element none is shorter than. *)
Fixpoint min_element (best : str) (v : list str) : str :=
  match v with
  | [] => best
  | x :: v' => min_element (if Nat.ltb (length x) (length best) then x else best) v'
  end.

(** [x[i]] of std::string (commonprefix.h:60): NUL at [size()], undefined behaviour
    ([None]) beyond. *)
Definition char_at (x : str) (i : nat) : option ascii :=
  if Nat.eqb i (length x) then Some "000"%char else nth_error x i.

(** The inner loop of commonprefix.h:59-60; [Some true]: all equal to [c]. *)
Fixpoint all_equal (c : ascii) (i : nat) (v : list str) : option bool :=
  match v with
  | [] => Some true
  | x :: v' =>
      match char_at x i with
      | None => None
      | Some d => if Ascii.eqb d c then all_equal c i v' else Some false
      end
  end.

(** The outer loop of commonprefix.h:55-62: [rest] holds the characters of [*smin]
    from position [i] on. *)
Fixpoint prefix_loop (v : list str) (i : nat) (rest prefix : str) : option str :=
  match rest with
  | [] => Some prefix
  | c :: rest' =>
      match all_equal c i v with
      | None => None
      | Some false => Some prefix
      | Some true => prefix_loop v (S i) rest' (prefix ++ [c])
      end
  end.

(** commonprefix.h:43-65 [CommonPrefix]; [None] for undefined behaviour: the empty
    list (violated assertion, then dereferencing [end()]) or an index out of range. *)
Definition common_prefix (v : list str) : option str :=
  match v with
  | [] => None
  | x :: v' => prefix_loop v 0 (min_element x v') []
  end.
