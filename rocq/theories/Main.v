(** Model of main.go, the command line tool. *)
From Coq Require Import String Ascii List Bool ZArith.
From Verif Require Import Str Ast Items ErrorRender ParserApi Format.
Import ListNotations.
Local Open Scope string_scope.

(** What the tool takes from outside: the version that the toolchain recorded (main.go:24-53 [getVersion]), the files
    ([os.ReadFile], with the text of its error), encoding/json on the statements, and what the flag package writes to
    stderr when the arguments are wrong. None of these is modelled further. *)
Record world := mkWorld {
  w_version : string;
  w_read : string -> string + string;
  w_json : list expr -> list (Z * Z) -> string;
  w_flag : list string -> string }.

(** The output, the error output and the exit code; or a Go panic, with what was printed before it (the trace that
    the Go runtime prints, and its exit code 2, are left out). [Running] is a modelling device for a parser that runs out of fuel. *)
Inductive outcome : Type :=
| Exit (out err : string) (code : nat)
| Panicked (out : string)
| Running.

(** main.go:55-61 [options]. *)
Record options := mkO { o_help : bool; o_file : string; o_format : bool; o_beautify : bool; o_version : bool }.
Definition no_options : options := mkO false "" false false false.

(** main.go:63-69 [init], as a table of setters. *)
Definition bool_flag (name : string) : option (bool -> options -> options) :=
  if String.eqb name "format" then Some (fun b o => mkO (o_help o) (o_file o) b (o_beautify o) (o_version o))
  else if String.eqb name "beautify" then Some (fun b o => mkO (o_help o) (o_file o) (o_format o) b (o_version o))
  else if String.eqb name "h" then Some (fun b o => mkO b (o_file o) (o_format o) (o_beautify o) (o_version o))
  else if String.eqb name "v" then Some (fun b o => mkO (o_help o) (o_file o) (o_format o) (o_beautify o) b)
  else None.
Definition set_file (f : string) (o : options) : options := mkO (o_help o) f (o_format o) (o_beautify o) (o_version o).

(** strconv.ParseBool. *)
Definition parse_bool (s : string) : option bool :=
  if str_in s ["1"; "t"; "T"; "TRUE"; "true"; "True"] then Some true
  else if str_in s ["0"; "f"; "F"; "FALSE"; "false"; "False"] then Some false
  else None.

(** Go's flag package, [FlagSet.parseOne]: how an argument reads as a flag. The name goes up to the first equals sign
    that is not in front. *)
Fixpoint split_value (s : string) : string * option string :=
  match s with
  | "" => ("", None)
  | String c r => if Ascii.eqb c "=" then ("", Some r) else let (n, v) := split_value r in (String c n, v)
  end.
Inductive arg_kind : Type := NotFlag | BadFlag | Flag (name : string) (value : option string).
Definition flag_name (s : string) : arg_kind :=
  match s with
  | "" => BadFlag
  | String c r => if Ascii.eqb c "-" || Ascii.eqb c "=" then BadFlag else let (n, v) := split_value r in Flag (String c n) v
  end.
Definition arg_of (s : string) : arg_kind :=
  match s with
  | String c (String d r) =>
      if negb (Ascii.eqb c "-") then NotFlag
      else if Ascii.eqb d "-" then match r with "" => NotFlag | _ => flag_name r end
      else flag_name (String d r)
  | _ => NotFlag
  end.

(** [flag.Parse] with the flags above: it stops at the first argument that is not a flag. [FlagHelp] is ErrHelp (for the name
    help, which main.go does not define) and [FlagError] any other error. *)
Inductive flags : Type := FlagOk (o : options) | FlagHelp | FlagError.
Fixpoint parse_flags (args : list string) (o : options) : flags :=
  match args with
  | [] => FlagOk o
  | s :: r =>
      match arg_of s with
      | NotFlag => FlagOk o
      | BadFlag => FlagError
      | Flag name value =>
          match bool_flag name with
          | Some set =>
              match value with
              | None => parse_flags r (set true o)
              | Some v => match parse_bool v with Some b => parse_flags r (set b o) | None => FlagError end
              end
          | None =>
              if String.eqb name "f" then
                match value with
                | Some v => parse_flags r (set_file v o)
                | None => match r with v :: r' => parse_flags r' (set_file v o) | [] => FlagError end
                end
              else if String.eqb name "help" then FlagHelp else FlagError
          end
      end
  end.

(** main.go:20-22 [help]. *)
Definition nl : string := String (ch 10) "".
Definition help : string :=
  nl ++ "Usage: clickhouse-sql-parser [YOUR SQL STRING] -f [YOUR SQL FILE] -format -beautify" ++ nl.

(** strings.HasPrefix of a dash. *)
Definition dashed (s : string) : bool := match s with String c _ => Ascii.eqb c "-" | "" => false end.

(** main.go:110-119: the loop over the statements; [out] is what was printed before. *)
Fixpoint print_all (show : expr -> fres string) (l : list expr) (out : string) : outcome :=
  match l with
  | [] => Exit out "" 0
  | e :: r => match show e with FOk t => print_all show r (out ++ t ++ nl) | FPanic => Panicked out | FFuel => Running end
  end.

(** main.go:98-120: from the input on. *)
Definition parse_and_print (w : world) (o : options) (inp : string) : outcome :=
  match parse_stmts inp with
  | Parsed stmts sp =>
      if negb (o_format o) && negb (o_beautify o) then Exit (w_json w stmts sp ++ nl) "" 0
      else print_all (if o_beautify o then Beautify "  " else Format) stmts ""
  | Failed pe => match Error pe with Some m => Exit "" ("parse statements error: " ++ m ++ nl) 1 | None => Panicked "" end
  | Crashed _ => Panicked ""
  | Diverged => Running
  end.

(** main.go:71-121 [main]; [args] is os.Args without the name of the program. With [flag.ExitOnError], [flag.Parse] ends
    the program with code 2, or 0 for ErrHelp. *)
Definition main (w : world) (args : list string) : outcome :=
  match parse_flags args no_options with
  | FlagError => Exit "" (w_flag w args) 2
  | FlagHelp => Exit "" (w_flag w args) 0
  | FlagOk o =>
      if o_version o then Exit (w_version w ++ nl) "" 0
      else if match args with [] => true | _ => false end || o_help o then Exit help "" 0
      else if negb (String.eqb (o_file o) "") then
        match w_read w (o_file o) with
        | inr m => Exit "" ("read file error: " ++ m ++ nl) 1
        | inl inp => parse_and_print w o inp
        end
      else if dashed (last args "") then Exit help "" 0
      else parse_and_print w o (last args "")
  end.
