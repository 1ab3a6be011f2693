(** Reading the arguments of template actions, written from the grammar of text/template, and the call
    tree that an expression stands for. *)
From Coq Require Import String Ascii List ZArith NArith Bool.
From Verif Require Import GoStr RazorExprModel.
Import ListNotations.

(** ** The grammar of commands *)

(** What a command is made of: words and literals, bracketed commands, fields of bracketed commands. *)
Inductive tree : Type := Atom (s : str) | App (l : list tree) | Field (t : tree) (name : str).
(** Brackets around a single operand mean nothing. *)
Definition group (l : list tree) : tree := match l with [t] => t | _ => App l end.

Definition blank (c : ascii) : bool := match c with " " | "009" | "010" | "013" => true | _ => false end%char.
Definition quotation (c : ascii) : bool := match c with """" | "'" | "`" => true | _ => false end%char.
Definition bracket (c : ascii) : bool := match c with "(" | ")" => true | _ => false end%char.
Definition word_char (c : ascii) : bool := negb (blank c || quotation c || bracket c).

(** A literal up to its closing quote [q]. *)
Fixpoint literal_end (q : ascii) (s : str) : option (str * str) :=
  match s with
  | [] => None
  | c :: r =>
      if Ascii.eqb c q then Some ([c], r)
      else if Ascii.eqb c "\" && negb (Ascii.eqb q "`") then
        match r with
        | [] => None
        | d :: r' => match literal_end q r' with Some (t, rest) => Some (c :: d :: t, rest) | None => None end
        end
      else match literal_end q r with Some (t, rest) => Some (c :: t, rest) | None => None end
  end%char.

(** The fields after a closing bracket; [cur] is the name being read, reversed. *)
Fixpoint fields_of (t : tree) (cur : option str) (s : str) : option (tree * str) :=
  let stop := match cur with None => Some (t, s) | Some [] => None | Some w => Some (Field t (rev w), s) end in
  match s with
  | [] => stop
  | c :: r =>
      if Ascii.eqb c "."
      then match cur with
           | None => fields_of t (Some []) r
           | Some [] => None
           | Some w => fields_of (Field t (rev w)) (Some []) r
           end
      else match cur with
           | Some w => if word_char c then fields_of t (Some (c :: w)) r else stop
           | None => stop
           end
  end%char.

(** One operand, and the operands of a command up to a closing bracket or the end.  The number bounds the
    depth of the reading. *)
Fixpoint operand (n : nat) (s : str) : option (tree * str) :=
  match n with
  | O => None
  | S n =>
      match s with
      | [] => None
      | c :: r =>
          if Ascii.eqb c "(" then
            match operands n r with
            | Some (l, e :: rest) => if Ascii.eqb e ")" then fields_of (group l) None rest else None
            | _ => None
            end
          else if quotation c then
            match literal_end c r with Some (t, rest) => Some (Atom (c :: t), rest) | None => None end
          else match take_while word_char s with
               | [] => None
               | w => Some (Atom w, drop_while word_char s)
               end
      end
  end%char
with operands (n : nat) (s : str) : option (list tree * str) :=
  match n with
  | O => None
  | S n =>
      match operand n s with
      | None => None
      | Some (t, []) => Some ([t], [])
      | Some (t, c :: r) =>
          if blank c then
            match operands n (drop_while blank r) with Some (l, rest) => Some (t :: l, rest) | None => None end
          else Some ([t], c :: r)
      end
  end.
(** The operands of a whole text. *)
Definition read_command (s : str) : option (list tree) :=
  match operands (2 * List.length s + 2) s with Some (l, []) => Some l | _ => None end.

(** ** What an expression stands for *)

(** A name: letters, digits and underscores (bytes above 127 belong to letters). *)
Definition name_char (c : ascii) : bool :=
  let n := N_of_ascii c in
  ((48 <=? n) && (n <=? 57) || (65 <=? n) && (n <=? 90) || (97 <=? n) && (n <=? 122) || (n =? 95) || (128 <=? n))%N.
(** A name as the parser delivers it: it may begin with the marker of a dot or of a dollar sign, it does
    not contain the markers that the translation adds. *)
Definition name (s : str) : Prop :=
  match s with [] => False | c :: _ => is_digit c = false end /\ forallb name_char s = true /\ contains $"__FuncCall__" s = false /\ has_prefix $"__GlobalVar__" s = false.
Definition local_name (s : str) : bool := has_prefix $"__DoTPrefix__" s || has_prefix $"__REPL_0__" s.
(** Names without a marker belong to the global context. *)
Definition variable (s : str) : str := if local_name s then s else $"__GlobalVar__" ++ s.

Definition function_names : list (str * str) :=
  [($"==", $"eq"); ($"!=", $"ne"); ($"<", $"lt"); ($"<=", $"le"); ($">", $"gt"); ($">=", $"ge");
   ($"+", $"add"); ($"-", $"sub"); ($"*", $"mul"); ($"/", $"div"); ($"%", $"mod");
   ($"&&", $"and"); ($"||", $"or"); ($"!", $"not");
   ($"&", $"band"); ($"|", $"bor"); ($"^", $"bxor"); ($"&^", $"bclear"); ($"<<", $"lshift"); ($">>", $"rshift")].
Definition named (op n : str) : Prop := In (op, n) function_names.
Definition function_of (op : str) : str :=
  match find (fun kv => str_eqb (fst kv) op) function_names with Some kv => snd kv | None => [] end.

Fixpoint starred (e : expr) : bool := match e with Star _ => true | Paren x => starred x | _ => false end.
Fixpoint number (e : expr) : option str :=
  match e with
  | Paren x => number x
  | Lit (c :: v) => if is_digit c then Some (c :: v) else None
  | _ => None
  end.
Definition field (t : tree) (s : str) : tree := match t with Atom a => Atom (a ++ $"." ++ s) | _ => Field t s end.

(** The words of the command of an expression. *)
Fixpoint words (e : expr) : list tree :=
  match e with
  | Unary op x =>
      if str_eqb op $"-" then
        match number x with Some v => [Atom ($"-" ++ v)] | None => [Atom $"sub"; Atom $"0"; group (words x)] end
      else [Atom (function_of op); group (words x)]
  | Binary op x y =>
      [Atom (if str_eqb op $"*" && starred y then $"power" else function_of op); group (words x); group (words y)]
  | Ident n => [Atom (variable n)]
  | Lit v => [Atom v]
  | Sel x s => [field (group (words x)) s]
  | Paren x => words x
  | Call f args dots =>
      let h := (fix head (f : expr) : tree :=
                  match f with
                  | Ident n => Atom (n ++ $"__FuncCall__")
                  | Sel x s => field (group (words x)) (s ++ $"__FuncCall__")
                  | Paren f => head f
                  | _ => App []
                  end) f in
      let values := map (fun a => group (words a)) args in
      match values with
      | [] => [h]
      | _ => if dots then Atom $"ellipsis" :: match h with Atom n => Atom ($"""" ++ n ++ $"""") | t => t end :: values
             else h :: values
      end
  | Star x => words x
  | Index x i => [Atom $"slice"; group (words x); group (words i)]
  | Slice x low high =>
      [Atom $"slice"; group (words x)] ++
      match low with Some l => [group (words l)] | None => [] end ++ match high with Some h => [group (words h)] | None => [] end
  | Other => []
  end.
(** The call tree. *)
Definition call_tree (e : expr) : tree := group (words e).

(** ** The supported expressions *)

(** A command that begins with a method of the current context and has arguments is left without brackets. *)
Definition bare (l : list tree) : bool := match l with Atom h :: _ :: _ => has_prefix $"__DoTPrefix__" h | _ => false end.
(** No literal contains a star. *)
Fixpoint starless (e : expr) : bool :=
  match e with
  | Unary _ x | Sel x _ | Paren x | Star x => starless x
  | Binary _ x y | Index x y => starless x && starless y
  | Lit v => negb (contains_byte "*" v)
  | Call f args _ => starless f && forallb starless args
  | Slice x low high =>
      starless x && match low with Some l => starless l | None => true end && match high with Some h => starless h | None => true end
  | Ident _ | Other => true
  end%char.
(** A literal: a number, or a text, a raw text or a character between quotes. *)
Definition literal (v : str) : Prop :=
  match v with
  | [] => False
  | c :: r => if quotation c then literal_end c r = Some (r, []) else forallb word_char v = true
  end.
Fixpoint is_literal (e : expr) : bool := match e with Lit _ => true | Paren x => is_literal x | _ => false end.
Fixpoint callable (e : expr) : bool := match e with Ident _ | Sel _ _ => true | Paren x => callable x | _ => false end.
(** The function of a call with dots is given by a plain name. *)
Fixpoint plain_name (e : expr) : Prop :=
  match e with Ident n => forallb (fun c => (N_of_ascii c <? 128)%N) n = true | Paren x => plain_name x | _ => False end.
Definition known (op : str) : Prop := In op (map fst function_names).

Fixpoint fine (e : expr) : Prop :=
  match e with
  | Unary op x => known op /\ fine x /\ starred x = false /\ bare (words x) = false
  | Binary op x y =>
      known op /\ (fine x /\ starred x = false /\ bare (words x) = false) /\ fine y /\ bare (words y) = false /\
      (starred y = true -> op = $"*") /\ (op = $"*" -> starless y = true)
  | Ident n => name n
  | Lit v => literal v
  | Sel x s => fine x /\ starred x = false /\ bare (words x) = false /\ is_literal x = false /\ name s
  | Paren x => fine x
  | Call f args dots =>
      fine f /\ callable f = true /\
      (fix all (l : list expr) : Prop :=
         match l with [] => True | a :: l' => (fine a /\ starred a = false /\ bare (words a) = false) /\ all l' end) args /\
      (dots = true -> plain_name f)
  | Star x => fine x /\ starred x = false /\ bare (words x) = false
  | Index x i =>
      (fine x /\ starred x = false /\ bare (words x) = false) /\ fine i /\ starred i = false /\ bare (words i) = false
  | Slice x (Some l) (Some h) =>
      (fine x /\ starred x = false /\ bare (words x) = false) /\ (fine l /\ starred l = false /\ bare (words l) = false) /\
      fine h /\ starred h = false /\ bare (words h) = false
  | Slice _ _ _ | Other => False
  end.
(** An expression that can be an operand. *)
Definition usable (e : expr) : Prop := fine e /\ starred e = false /\ bare (words e) = false.

(** The expressions of the known kinds, well-formed or not. *)
Fixpoint supported (e : expr) : Prop :=
  match e with
  | Unary op x => known op /\ supported x
  | Binary op x y => known op /\ supported x /\ supported y
  | Ident _ | Lit _ => True
  | Sel x _ | Paren x | Star x => supported x
  | Call f args _ => supported f /\ (fix all (l : list expr) : Prop := match l with [] => True | a :: l' => supported a /\ all l' end) args
  | Index x i => supported x /\ supported i
  | Slice x (Some l) (Some h) => supported x /\ supported l /\ supported h
  | Slice _ _ _ | Other => False
  end.
(** Literals are not empty. *)
Fixpoint literals (e : expr) : Prop :=
  match e with
  | Lit v => v <> []
  | Unary _ x | Sel x _ | Paren x | Star x => literals x
  | Binary _ x y | Index x y => literals x /\ literals y
  | Call f args _ => literals f /\ (fix all (l : list expr) : Prop := match l with [] => True | a :: l' => literals a /\ all l' end) args
  | Slice x low high =>
      literals x /\ match low with Some l => literals l | None => True end /\ match high with Some h => literals h | None => True end
  | Ident _ | Other => True
  end.
