(** cmd/hangulize: the arguments of the process, the flags and the choice of the command, with
    what they need of cobra 1.6 (Find, execute) and of pflag 1.0.5 (Parse). The messages that are
    printed for an error, the help, and cobra's own commands are left out. *)
From Coq Require Import String.
From Verif Require Import GoBase.
Open Scope N_scope.

(** main.go:28-29, ls.go:15-16, dev.go:14-15, test.go:25-26, version.go:13-14: the commands; and
    those that cobra adds: help, completion, and one that shells use. *)
Inductive command := Root | Ls | Dev | Test | Version | Cobra.
Definition command_names : list (bytes * command) :=
  [(lit "ls", Ls); (lit "dev", Dev); (lit "test", Test); (lit "version", Version);
   (lit "help", Cobra); (lit "completion", Cobra); (lit "__complete", Cobra); (lit "__completeNoDesc", Cobra)].

(** main.go:22-26, test.go:10-23, and cobra's flag for the help. *)
Inductive flag := FVerbose | FHelp | FCover | FProfile.
Definition flag_names (c : command) : list (bytes * flag) :=
  (lit "verbose", FVerbose) :: (lit "help", FHelp) ::
  match c with Test => [(lit "cover", FCover); (lit "coverprofile", FProfile)] | _ => [] end.
Definition shorthands : list (N * flag) := [(0x76, FVerbose); (0x68, FHelp)].
Definition shorthand (c : N) : option flag :=
  match find (fun e => fst e =? c) shorthands with Some (_, f) => Some f | None => None end.

(** What pflag.Parse leaves: the values of the flags, and the arguments that are no flags. *)
Record parsed := { pa_verbose : bool; pa_help : bool; pa_cover : bool; pa_profile : bytes; pa_args : list bytes }.
Definition unparsed : parsed := {| pa_verbose := false; pa_help := false; pa_cover := false; pa_profile := []; pa_args := [] |}.
Definition add_args (l : list bytes) (p : parsed) : parsed :=
  {| pa_verbose := pa_verbose p; pa_help := pa_help p; pa_cover := pa_cover p; pa_profile := pa_profile p; pa_args := pa_args p ++ l |}.

(** strconv.ParseBool *)
Definition parse_bool (s : bytes) : option bool :=
  if existsb (beqb s) [lit "1"; lit "t"; lit "T"; lit "TRUE"; lit "true"; lit "True"] then Some true
  else if existsb (beqb s) [lit "0"; lit "f"; lit "F"; lit "FALSE"; lit "false"; lit "False"] then Some false
  else None.
(** pflag FlagSet.Set *)
Definition set_flag (f : flag) (value : bytes) (p : parsed) : option parsed :=
  match f with
  | FProfile => Some {| pa_verbose := pa_verbose p; pa_help := pa_help p; pa_cover := pa_cover p; pa_profile := value; pa_args := pa_args p |}
  | _ =>
    match parse_bool value, f with
    | None, _ => None
    | Some b, FVerbose => Some {| pa_verbose := b; pa_help := pa_help p; pa_cover := pa_cover p; pa_profile := pa_profile p; pa_args := pa_args p |}
    | Some b, FHelp => Some {| pa_verbose := pa_verbose p; pa_help := b; pa_cover := pa_cover p; pa_profile := pa_profile p; pa_args := pa_args p |}
    | Some b, _ => Some {| pa_verbose := pa_verbose p; pa_help := pa_help p; pa_cover := b; pa_profile := pa_profile p; pa_args := pa_args p |}
    end
  end.
(** The flag whose value may be left out *)
Definition optional (f : flag) : bool := match f with FProfile => false | _ => true end.

(** strings.SplitN(name, "=", 2) *)
Fixpoint split_equals (s : bytes) : bytes * option bytes :=
  match s with
  | [] => ([], None)
  | c :: s' => if c =? 0x3D then ([], Some s') else let '(n, v) := split_equals s' in (c :: n, v)
  end.
(** pflag parseShortArg: the characters after the dash. No shorthand here has a value that cannot
    be left out. *)
Fixpoint parse_short (shorts : bytes) (p : parsed) : option parsed :=
  match shorts with
  | [] => Some p
  | c :: rest =>
    if has_prefix shorts (lit "test.") then Some p
    else match shorthand c with
         | None => None
         | Some f =>
           if (2 <=? length rest)%nat && has_prefix rest (lit "=") then set_flag f (tl rest) p
           else match set_flag f (lit "true") p with Some p1 => parse_short rest p1 | None => None end
         end
  end.
(** pflag parseArgs: what is parsed as a flag *)
Definition is_flag (s : bytes) : bool := has_prefix s (lit "-") && (2 <=? length s)%nat.
(** pflag parseArgs and parseLongArg. None for an error. *)
Fixpoint parse_args (c : command) (args : list bytes) (p : parsed) : option parsed :=
  match args with
  | [] => Some p
  | s :: args' =>
    if negb (is_flag s) then parse_args c args' (add_args [s] p)
    else if beqb s (lit "--") then Some (add_args args' p)
    else if negb (has_prefix s (lit "--")) then
      match parse_short (tl s) p with Some p1 => parse_args c args' p1 | None => None end
    else
      let name := skipn 2 s in
      if has_prefix name (lit "-") || has_prefix name (lit "=") then None
      else
        let '(n, v) := split_equals name in
        match lookup (flag_names c) n with
        | None => None
        | Some f =>
          match v with
          | Some value => match set_flag f value p with Some p1 => parse_args c args' p1 | None => None end
          | None =>
            if optional f then match set_flag f (lit "true") p with Some p1 => parse_args c args' p1 | None => None end
            else match args' with
                 | [] => None
                 | value :: args'' => match set_flag f value p with Some p1 => parse_args c args'' p1 | None => None end
                 end
          end
        end
  end.

(** ** cobra *)

(** hasNoOptDefVal and shortHasNoOptDefVal for the flags of the root, where the flag for the help
    is not yet there; whether the next argument is passed over as the value of this one *)
Definition takes_next (s : bytes) : bool :=
  negb (existsb (N.eqb 0x3D) s) &&
  ((has_prefix s (lit "--") && negb (beqb (skipn 2 s) (lit "verbose"))) ||
   (has_prefix s (lit "-") && Nat.eqb (length s) 2 && negb (beqb s (lit "-v")))).
(** stripFlags, as far as its first result is asked for *)
Fixpoint first_command (args : list bytes) : option bytes :=
  match args with
  | [] => None
  | s :: args' =>
    if beqb s (lit "--") then None
    else if takes_next s then match args' with [] | [_] => None | _ :: args'' => first_command args'' end
    else if negb (beqb s []) && negb (has_prefix s (lit "-")) then Some s
    else first_command args'
  end.
(** argsMinusFirstX *)
Fixpoint minus_first (x : bytes) (args : list bytes) : list bytes :=
  match args with
  | [] => []
  | s :: args' =>
    if beqb s (lit "--") then args
    else if takes_next s then s :: match args' with [] => [] | v :: args'' => v :: minus_first x args'' end
    else if negb (has_prefix s (lit "-")) && beqb s x then args'
    else s :: minus_first x args'
  end.
(** Find: no command but the root has commands of its own that are modelled. *)
Definition find_command (args : list bytes) : command * list bytes :=
  match first_command args with
  | None => (Root, args)
  | Some n => match lookup command_names n with Some c => (c, minus_first n args) | None => (Root, args) end
  end.
(** main.go:32, ls.go:18, dev.go:17, test.go:28 *)
Definition number_ok (c : command) (n : nat) : bool :=
  match c with Root | Test => (1 <=? n)%nat | Dev => Nat.eqb n 1 | Ls | Version | Cobra => true end.

(** What becomes of the arguments: an error is printed and the process exits with 1; the help is
    printed; a function of hangulize runs; or one of cobra. *)
Inductive outcome := UsageError | ShowsHelp (c : command) | Runs (c : command) (p : parsed) | CobraRuns.
(** ExecuteC and execute *)
Definition command_line (args : list bytes) : outcome :=
  match find_command args with
  | (Cobra, _) => CobraRuns
  | (c, rest) =>
    match parse_args c rest unparsed with
    | None => UsageError
    | Some p =>
      if pa_help p then ShowsHelp c
      else if number_ok c (length (pa_args p)) then Runs c p
      else UsageError
    end
  end.
