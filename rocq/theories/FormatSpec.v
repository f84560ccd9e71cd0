(** Vocabulary for the properties of the formatter: the strings that a tree holds, line breaks and
    blanks. *)
From Coq Require Import String Ascii List Arith Bool.
From Verif Require Import Str Ast AstSubs.
Import ListNotations.
Local Open Scope list_scope.
Local Open Scope nat_scope.

(** The strings held in the fields of a node (ast.go; generated from the same struct definitions as Ast.v). *)
Definition texts (e : expr) : list string :=
  match e with
  | EOperationExpr _ Kind => [Kind]
  | EBinaryOperation _ Operation _ _ _ => [Operation]
  | EIndexOperation _ Operation _ => [Operation]
  | EIdent Name _ _ _ => [Name]
  | ECreateMaterializedView _ _ _ _ _ _ _ _ _ _ _ _ _ _ _ _ _ _ SQLSecurity => [SQLSecurity]
  | ESettingPair _ Operation _ => [Operation]
  | EAuthenticationClause _ _ _ AuthType _ _ _ _ => [AuthType]
  | EHostClause _ _ HostType _ => [HostType]
  | ETTLPolicyRuleAction _ _ Action _ => [Action]
  | ERefreshExpr _ Frequency _ _ => [Frequency]
  | EOrderExpr _ _ _ Direction _ => [Direction]
  | ENumberLiteral _ _ Literal _ => [Literal]
  | EStringLiteral _ _ Literal => [Literal]
  | EBoolLiteral _ _ Literal => [Literal]
  | EPlaceHolder _ _ Type_ => [Type_]
  | EEngineExpr _ _ Name _ _ _ _ _ _ _ => [Name]
  | ECastExpr _ _ Separator _ _ => [Separator]
  | EJoinExpr _ _ _ Modifiers _ => Modifiers
  | EGroupByClause _ _ AggregateType _ _ _ _ => [AggregateType]
  | EWindowFrameClause _ Type_ _ => [Type_]
  | EWindowFrameExtendExpr _ Direction _ => [Direction]
  | EWindowFrameUnbounded _ _ Direction => [Direction]
  | EWindowFrameNumber _ _ Direction => [Direction]
  | EWindowFrameParam _ _ Direction => [Direction]
  | EDropDatabase _ _ _ _ _ Modifier => [Modifier]
  | EDropStmt _ _ DropTarget _ _ _ _ Modifier => [DropTarget] ++ [Modifier]
  | EDropUserOrRole _ Target _ _ _ Modifier _ => [Target] ++ [Modifier]
  | ESystemReloadExpr _ _ _ _ Type_ => [Type_]
  | ESystemCtrlExpr _ _ Command Type_ _ => [Command] ++ [Type_]
  | ESystemDropExpr _ _ Type_ => [Type_]
  | EUnaryExpr _ Kind _ => [Kind]
  | ERenameStmt _ _ RenameTarget _ _ => [RenameTarget]
  | EExplainStmt _ Type_ _ => [Type_]
  | EPrivilegeClause _ _ Keywords _ => Keywords
  | EGrantPrivilegeStmt _ _ _ _ _ _ WithOptions => WithOptions
  | EShowStmt _ _ ShowType _ _ LikeType _ _ _ _ => [ShowType] ++ [LikeType]
  | EDescribeStmt _ _ DescribeType _ => [DescribeType]
  | _ => []
  end.

(** [s] is held in some node of the tree [t]. *)
Definition held (t : expr) (s : string) : Prop := exists e, node_of t e /\ In s (texts e).

Definition newline : ascii := ch 10.

(** [s] has no line break. *)
Fixpoint one_line (s : string) : bool := match s with EmptyString => true | String c r => negb (Ascii.eqb c newline) && one_line r end.

(** The byte of [t] at offset [i] lies in an occurrence of [s]. *)
Definition within (t : string) (i : nat) (s : string) : Prop :=
  exists p q, t = (p ++ s ++ q)%string /\ String.length p <= i < String.length p + String.length s.

(** [s] without its blanks and line breaks. *)
Fixpoint squeeze (s : string) : string :=
  match s with
  | EmptyString => EmptyString
  | String c r => if Ascii.eqb c " " || Ascii.eqb c newline then squeeze r else String c (squeeze r)
  end.

(** [s] occurs in [t], byte for byte. *)
Definition occurs (s t : string) : Prop := exists p q, t = (p ++ s ++ q)%string.

(** [s] is what is between the quotes of a string literal or quoted identifier [e], and [q] is the quote
    (ast.go [StringLiteral], [Ident]; 2, 3 and 4 are [DoubleQuote], [BackTicks] and [SingleQuote] of lexer.go). *)
Inductive quoted : expr -> string -> string -> Prop :=
| quoted_string p1 p2 s : quoted (EStringLiteral p1 p2 s) "'" s
| quoted_double s p1 p2 : quoted (EIdent s 2 p1 p2) (String (ch 34) "") s
| quoted_back s p1 p2 : quoted (EIdent s 3 p1 p2) "`" s
| quoted_single s p1 p2 : quoted (EIdent s 4 p1 p2) "'" s.

(** The bracket that closes [c], when [c] opens one. *)
Definition closing (c : ascii) : option ascii :=
  if Ascii.eqb c "(" then Some ")"%char else if Ascii.eqb c "[" then Some "]"%char else if Ascii.eqb c "{" then Some "}"%char else None.
Definition closes (c : ascii) : bool := Ascii.eqb c ")" || Ascii.eqb c "]" || Ascii.eqb c "}".

(** The brackets that are still to be closed after [s], when those in [st] were before it (the innermost first).
    [None]: a bracket is closed that is not open, or not the innermost one. *)
Fixpoint nest (st : list ascii) (s : string) : option (list ascii) :=
  match s with
  | EmptyString => Some st
  | String c r =>
      match closing c with
      | Some d => nest (d :: st) r
      | None => if closes c then match st with d :: st' => if Ascii.eqb c d then nest st' r else None | [] => None end else nest st r
      end
  end.

(** Every bracket of [s] is closed, by a bracket of its kind and inside what it is in itself. *)
Definition nested (s : string) : Prop := nest [] s = Some [].
