(** * Model of [Menu::Insert] for functions: which command a call makes
    Source: /repo/include/cli/cli.h:465-480, 684-692, 703-862, 982-1006.

    What the compiler decides is modelled as a function: overload resolution between
    the templates named [Insert], deduction of their arguments from the callable, and
    whether the class chosen can be instantiated.  The rules are those of C++14
    ([over.match], [temp.deduct], [temp.func.order]) for the parameters occurring here.

    Simplifications.  The first argument is always a name.  Classes given for parameters
    are copyable and, read by [operator>>], default constructible.  [const T] by value is
    [T] (the type of a function drops it), [const T&&] is counted as [T&&].
    [std::nullptr_t] (fromstring.h:75-79) is not a parameter type here.  Member functions
    qualified by [&] or [volatile] count as [const]-less ones.  The private overloads take
    a pointer to member as their last argument; calls by users here pass none, so that only
    the public ones compete for them. *)

From Verif Require Import Base FromStringModel MenuModel.
Open Scope nat_scope.
Open Scope list_scope.

(** ** Callables *)

(** A parameter type without reference: one with a [from_string] (fromstring.h),
    [std::vector<std::string>], or one that no [operator>>] reads. *)
Inductive base := BParam (p : ptype) | BWords | BOther (n : nat).
(** [T], [const T&], [T&], [T&&] *)
Inductive pass := ByValue | ByCRef | ByRef | ByMove.
Definition par := (pass * base)%type.

(** A function (decayed to a pointer); an object, as of a lambda expression or of
    [std::function], with one [operator()], [const] or not; an object with overloaded or
    template [operator()]. *)
Inductive shape := Pointer | Functor (constant : bool) | Overloaded.
Record callable := mkCall {
  c_shape : shape;
  c_stream : bool;      (* the first parameter is std::ostream& *)
  c_pars : list par     (* the others *)
}.

(** ** Arguments after the name *)
Inductive arg :=
| ACall (k : callable)
| AText (literal : bool) (s : str)   (* a string literal, or a std::string *)
| AVec (l : list str)                (* a std::vector<std::string> *)
| AList (l : list str).              (* string literals in braces *)

(** ** The public overloads: cli.h:465-466, 468-473, 475-480 *)
Inductive pat :=
| TPtr      (* R ( * )(std::ostream&, Args...) *)
| TAny      (* F *)
| TString   (* const std::string& *)
| TVec.     (* const std::vector<std::string>& *)
Inductive overload := O1 | O2 | O3.
(** Parameters after the name, with whether they have a default. *)
Definition params (o : overload) : list (pat * bool) :=
  match o with
  | O1 => [(TPtr, false); (TString, false); (TVec, true)]
  | O2 => [(TAny, false); (TString, true); (TVec, true)]
  | O3 => [(TVec, false); (TAny, false); (TString, true)]
  end.

(** Deduction and implicit conversion of one argument: 0, exact; 1, by a constructor.
    Braces deduce nothing.  [std::string] can be built from braces with no, one or two
    literals (two: the constructor from two iterators). *)
Definition rank (p : pat) (a : arg) : option nat :=
  match p, a with
  | TPtr, ACall k =>
      match c_shape k with Pointer => if c_stream k then Some 0 else None | _ => None end
  | TAny, (ACall _ | AText _ _ | AVec _) => Some 0
  | TString, AText literal _ => Some (if literal then 1 else 0)
  | TString, AList l => if Nat.leb (length l) 2 then Some 1 else None
  | TVec, AVec _ => Some 0
  | TVec, AList _ => Some 1
  | _, _ => None
  end.
Fixpoint ranks (ps : list (pat * bool)) (args : list arg) : option (list nat) :=
  match ps, args with
  | [], [] => Some []
  | [], _ :: _ => None
  | (_, dflt) :: ps', [] => if dflt then ranks ps' [] else None
  | (p, _) :: ps', a :: args' =>
      match rank p a, ranks ps' args' with Some r, Some rs => Some (r :: rs) | _, _ => None end
  end.

(** [over.match.best]: no argument worse and one better, or all alike and the template
    more specialised.  Of the three, only the first is more specialised than another, the
    second: their later parameters agree, and a pointer to a function is a special [F]. *)
Definition special (a b : overload) : bool := match a, b with O1, O2 => true | _, _ => false end.
Fixpoint none_worse (r s : list nat) : bool :=
  match r, s with x :: r', y :: s' => Nat.leb x y && none_worse r' s' | _, _ => true end.
Definition better (args : list arg) (a b : overload) : bool :=
  match ranks (params a) args, ranks (params b) args with
  | Some r, Some s => none_worse r s && (negb (none_worse s r) || special a b)
  | Some _, None => true
  | None, _ => false
  end.
Definition viable (args : list arg) (o : overload) : bool :=
  match ranks (params o) args with Some _ => true | None => false end.
(** The viable one better than the two others; none if there is no such. *)
Definition resolve (args : list arg) : option overload :=
  if viable args O1 && better args O1 O2 && better args O1 O3 then Some O1
  else if viable args O2 && better args O2 O1 && better args O2 O3 then Some O2
  else if viable args O3 && better args O3 O1 && better args O3 O2 then Some O3
  else None.

(** ** What the parameters get *)
Fixpoint given (p : pat) (ps : list (pat * bool)) (args : list arg) : option arg :=
  match ps, args with
  | (q, _) :: ps', a :: args' =>
      match p, q with
      | TPtr, TPtr | TAny, TAny | TString, TString | TVec, TVec => Some a
      | _, _ => given p ps' args'
      end
  | _, _ => None
  end.
(** The value of a [const std::string&] parameter, its default being empty (469, 476).
    [None]: two pointers that are no range, undefined behaviour. *)
Definition text_value (a : option arg) : option str :=
  match a with
  | Some (AText _ s) => Some s
  | Some (AList []) => Some []
  | Some (AList [s]) => Some s
  | Some (AList _) => None
  | _ => Some []
  end.
Definition words_value (a : option arg) : list str :=
  match a with Some (AVec l) | Some (AList l) => l | _ => [] end.

(** ** The command made *)
Inductive made := MFn (pars : list ptype) (help : str) (pdesc : list str) | MFree (help : str) (pdesc : list str) | MUB.

(** cli.h:708-720, 784-787: [const P p = from_string<decay<P>>(...)] refuses [T&]; the
    values are then passed on as copies that have names, which [T&&] refuses;
    fromstring.h:253-264: [operator>>] is needed. *)
Definition passable (q : par) : option ptype :=
  match q with
  | ((ByValue | ByCRef), BParam p) => Some p
  | _ => None
  end.
(** cli.h:759-814: the virtual functions of [VariadicFunctionCommand<F, Args...>] are
    instantiated with the class. *)
Fixpoint variadic (l : list par) : option (list ptype) :=
  match l with
  | [] => Some []
  | q :: l' => match passable q, variadic l' with Some p, Some ps => Some (p :: ps) | _, _ => None end
  end.

(** The private overloads for a pointer to member (684-692): by exact type; the two with
    [std::vector<std::string>] are more specialised than the first. *)
Definition one_words (l : list par) : bool :=
  match l with [((ByValue | ByCRef), BWords)] => true | _ => false end.
(** cli.h:989-1006, given the help text and the descriptions. *)
Definition dispatch (k : callable) (h : str) (d : list str) : option made :=
  match c_shape k with
  | Functor true =>
      if c_stream k then
        if one_words (c_pars k) then Some (MFree h d)
        else match variadic (c_pars k) with Some ps => Some (MFn ps h d) | None => None end
      else None
  | _ => None (* no [operator()], or none that the parameters match *)
  end.

(** cli.h:982-988 for the first overload, 469-480 for the others: the whole call.
    [None]: the program does not compile. *)
Definition insert_call (args : list arg) : option made :=
  match resolve args with
  | None => None
  | Some o =>
      let d := words_value (given TVec (params o) args) in
      let t := text_value (given TString (params o) args) in
      let m :=
        match o, given (match o with O1 => TPtr | _ => TAny end) (params o) args with
        | O1, Some (ACall k) =>
            match variadic (c_pars k) with
            | Some ps => Some (fun h => Some (MFn ps h d))
            | None => None
            end
        | O1, _ => None
        | _, Some (ACall k) => match dispatch k [] d with Some _ => Some (fun h => dispatch k h d) | None => None end
        | _, _ => None (* [&F::operator()] of a class without one *)
        end in
      match m, t with
      | None, _ => None
      | Some f, Some h => f h
      | Some _, None => Some MUB
      end
  end.

(** The object in the menu, enabled (cli.h:252, 482-488). *)
Definition made_cmd (id : nat) (name : str) (n : nat) (m : made) : option cmd :=
  match m with
  | MFn ps h d => Some (CFn id name true h ps d (HUser n))
  | MFree h d => Some (CFree id name true h d (HUser n))
  | MUB => None
  end.
