(** Translation of parsed razor expressions into template syntax: template/razor_expr.go. *)
From Coq Require Import String Ascii List ZArith NArith Bool.
From Verif Require Import GoStr QuoteModel.
Import ListNotations.

(** The placeholders: template/razor_repl_expr.go:20-22, 26-37 ([reserved] of the dollar sign). *)
Definition func_call : str := $"__FuncCall__".
Definition dot_rep : str := $"__DoTPrefix__".
Definition global_rep : str := $"__GlobalVar__".
Definition dollar_rep : str := $"__REPL_0__".

(** The node kinds of go/ast that nodeValue knows (template/razor_expr.go:17-124); [Other] stands for all
    the remaining ones, [None] for an absent bound of a slice.  The position of the dots of a call is a
    boolean. *)
Inductive expr : Type :=
| Unary (op : str) (x : expr)
| Binary (op : str) (x y : expr)
| Ident (name : str)
| Lit (value : str)
| Sel (x : expr) (sel : str)
| Paren (x : expr)
| Call (fn : expr) (args : list expr) (dots : bool)
| Star (x : expr)
| Index (x i : expr)
| Slice (x : expr) (low high : option expr)
| Other.

(** operators: template/razor_expr.go:135-156 *)
Definition operators : list (str * str) :=
  [($"==", $"eq"); ($"!=", $"ne"); ($"<", $"lt"); ($"<=", $"le"); ($">", $"gt"); ($">=", $"ge");
   ($"+", $"add"); ($"-", $"sub"); ($"/", $"div"); ($"*", $"mul"); ($"%", $"mod");
   ($"||", $"or"); ($"&&", $"and"); ($"!", $"not");
   ($"<<", $"lshift"); ($">>", $"rshift"); ($"|", $"bor"); ($"&", $"band"); ($"^", $"bxor"); ($"&^", $"bclear")].
Fixpoint op_lookup (l : list (str * str)) (op : str) : option str :=
  match l with [] => None | (k, v) :: l' => if str_eqb k op then Some v else op_lookup l' op end.
(** operatorName: template/razor_expr.go:158-163; an operator is the text of its token *)
Definition operator_name (op : str) : res str :=
  match op_lookup operators op with Some n => Ok n | None => Err ($"unknown operator " ++ op) end.

Definition is_digit (c : ascii) : bool := let n := N_of_ascii c in (N.leb 48 n && N.leb n 57)%bool.
Definition STAR : ascii := "*"%char.

(** nodeValueInternal, what it does with the result of nodeValue: template/razor_expr.go:165-176 *)
Definition internal (r : res str) : res str :=
  do s <- r;
  if has_prefix [DQ] s || negb (contains_byte " "%char s || contains_byte "009"%char s) then Ok s
  else let first := hd [] (split_n2 $" " s) in
       if has_prefix dot_rep first && contains func_call first then Ok s
       else Ok ($"(" ++ s ++ $")").

(** The text of an identifier: template/razor_expr.go:48-52 *)
Definition ident_text (name : str) : str :=
  if negb (has_prefix dot_rep name) && negb (has_prefix dollar_rep name) && negb (contains func_call name)
  then global_rep ++ name else name.

Section WithQuotes.
Context {P : PrintEnv}.

(** nodeValue: template/razor_expr.go:16-133, without the tracing of lines 129-131.  The bytes tested by
    unicode.IsDigit in line 27 are below 256, where only the ten ASCII digits are digits. *)
Fixpoint node_value (e : expr) : res str :=
  match e with
  | Unary op x =>
      do op <- operator_name op;
      do x <- internal (node_value x);
      if str_eqb op $"sub" then
        match x with
        | [] => Panic $"index out of range [0] with length 0"
        | c :: _ => Ok (if is_digit c then $"-" ++ x else $"sub 0 " ++ x)
        end
      else Ok (op ++ $" " ++ x)
  | Binary op x y =>
      do op <- operator_name op;
      do x <- internal (node_value x);
      do y <- internal (node_value y);
      if str_eqb op $"mul" && contains_byte STAR y
      then Ok ($"power " ++ x ++ $" " ++ filter (fun c => negb (Ascii.eqb c STAR)) y)
      else Ok (op ++ $" " ++ x ++ $" " ++ y)
  | Ident name => Ok (ident_text name)
  | Lit value => Ok value
  | Sel x sel =>
      do x <- internal (node_value x);
      do sel <- internal (Ok (ident_text sel));
      Ok (x ++ $"." ++ trim_prefix global_rep sel)
  | Paren x => node_value x
  | Call fn args dots =>
      do fn <- node_value fn;
      let fn := (if contains_byte "."%char fn then fn else trim_prefix global_rep fn) ++ func_call in
      match args with
      | [] => Ok fn
      | _ =>
          do args <- (fix values (l : list expr) : res (list str) :=
                        match l with
                        | [] => Ok []
                        | a :: l' => do s <- internal (node_value a); do r <- values l'; Ok (s :: r)
                        end) args;
          Ok (if dots then $"ellipsis " ++ go_quote fn ++ $" " ++ join $" " args
              else fn ++ $" " ++ join $" " args)
      end
  | Star x => do x <- internal (node_value x); Ok ($"*" ++ x)
  | Index x i =>
      do x <- internal (node_value x);
      do i <- internal (node_value i);
      Ok ($"slice " ++ x ++ $" " ++ i)
  | Slice x low high =>
      do x <- internal (node_value x);
      do low <- match low with Some l => internal (node_value l) | None => Err $"unknown: <nil>" end;
      do high <- match high with Some h => internal (node_value h) | None => Err $"unknown: <nil>" end;
      Ok ($"slice " ++ x ++ $" " ++ low ++ $" " ++ high)
  | Other => Err $"unknown"
  end.

(** nodeValueInternal: template/razor_expr.go:165-176 *)
Definition node_value_internal (e : expr) : res str := internal (node_value e).
End WithQuotes.
