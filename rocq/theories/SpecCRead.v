(** Reading C: from tokens back to the syntax trees of SpecCProg.v, as the grammar of C groups them (ISO C, 6.5 and 6.8), for C97 and
    C98.  Definitions only.  The functions take a number that bounds the depth; [reads_function] is about all numbers that are large enough. *)
From Coq Require Import Ascii String List Bool Arith.
From Verif Require Import Str SpecCLang SpecCProg.
Import ListNotations.

(** words that are no names *)
Definition keywords : list str := map (fun s => $s) ["if"; "else"; "return"; "switch"; "case"; "default"; "break"; "sizeof"]%string.
Definition is_keyword (w : str) : bool := existsb (str_eqb w) keywords.

(** what stands in front of the closing bracket, and what follows that bracket; [d]: how many brackets were opened in between *)
Fixpoint closing (d : nat) (l : list tok) : option (list tok * list tok) :=
  match l with
  | [] => None
  | t :: r =>
      let more x := match x with Some (a, b) => Some (t :: a, b) | None => None end in
      if is_op $")" t then match d with O => Some ([], r) | S d => more (closing d r) end
      else if is_op $"(" t then more (closing (S d) r) else more (closing d r)
  end.
(** string literals that follow each other are one (GDO_DEFAULT_LIB is a literal, c.h:84-90) *)
Fixpoint read_pieces (a : expr) (l : list tok) : expr * list tok :=
  match l with
  | TText s :: r => read_pieces (ECat a (EStr s)) r
  | TWord w :: r => if str_eqb w $"GDO_DEFAULT_LIB" then read_pieces (ECat a (EId w)) r else (a, l)
  | _ => (a, l)
  end.

Section Read.
(** the names of types, where the text stands *)
Variable type_word : str -> bool.
Definition starts_type (l : list tok) : bool := match l with TWord w :: _ => type_word w | _ => false end.

(** expressions: at level 1 postfix, 2 unary, 3 to 8 the binary operators, from left to right, 9 assignments *)
Fixpoint read_at (n k : nat) (l : list tok) {struct n} : option (expr * list tok) :=
  match n with
  | O => None
  | S n =>
      match k with
      | 0 | 1 => match read_first n l with Some (a, r) => read_tail n a r | None => None end
      | 2 =>
          let under f r := match read_at n 2 r with Some (a, r') => Some (f a, r') | None => None end in
          match l with
          | TOp o :: r =>
              if str_eqb o $"!" then under ENot r
              else if str_eqb o $"-" then under ENeg r
              else if str_eqb o $"*" then under EDeref r
              else if str_eqb o $"&" then under EAddr r
              else if str_eqb o $"(" && starts_type r then
                match closing 0 r with Some (ty, r') => under (ECast ty) r' | None => None end
              else read_at n 1 l
          | _ => read_at n 1 l
          end
      | 9 =>
          match read_at n 8 l with
          | Some (a, t :: r) =>
              if is_op $"=" t && (level a <=? 2) then match read_at n 9 r with Some (b, r') => Some (ESet a b, r') | None => None end
              else Some (a, t :: r)
          | x => x
          end
      | S k' => match read_at n k' l with Some (a, r) => read_more n k a r | None => None end
      end
  end
(** the operators of a level that follow [a] *)
with read_more (n k : nat) (a : expr) (l : list tok) {struct n} : option (expr * list tok) :=
  match n with
  | O => None
  | S n =>
      match l with
      | TOp o :: r =>
          if known_op o && (bin_level o =? k) then
            match read_at n (pred k) r with Some (b, r') => read_more n k (EBin o a b) r' | None => None end
          else Some (a, l)
      | _ => Some (a, l)
      end
  end
(** names, literals, brackets, calls *)
with read_first (n : nat) (l : list tok) {struct n} : option (expr * list tok) :=
  match n with
  | O => None
  | S n =>
      match l with
      | TText s :: r => Some (read_pieces (EStr s) r)
      | TChar s :: r => Some (EChr s, r)
      | TOp o :: r =>
          if str_eqb o $"(" then
            match read_at n 9 r with Some (a, t :: r') => if is_op $")" t then Some (EParen a, r') else None | _ => None end
          else None
      | TWord w :: r =>
          if type_word w then None
          else
            match r with
            | TOp o :: r' =>
                if str_eqb o $"(" then
                  if str_eqb w $"sizeof" then
                    match read_at n 9 r' with Some (a, t :: r'') => if is_op $")" t then Some (ESizeof a, r'') else None | _ => None end
                  else if is_keyword w then None
                  else match r' with
                       | t :: r'' => if is_op $")" t then Some (ECall w [], r'')
                                     else match read_args n r' with Some (l, r'') => Some (ECall w l, r'') | None => None end
                       | [] => None
                       end
                else if is_keyword w then None else Some (EId w, r)
            | _ => if is_keyword w then None
                   else if str_eqb w $"GDO_DEFAULT_LIB" then Some (read_pieces (EId w) r) else Some (EId w, r)
            end
      | _ => None
      end
  end
(** members and elements *)
with read_tail (n : nat) (a : expr) (l : list tok) {struct n} : option (expr * list tok) :=
  match n with
  | O => None
  | S n =>
      match l with
      | TOp o :: r =>
          if str_eqb o $"." then match r with TWord x :: r' => read_tail n (EField a x) r' | _ => None end
          else if str_eqb o $"->" then match r with TWord x :: r' => read_tail n (EArrow a x) r' | _ => None end
          else if str_eqb o $"[" then
            match read_at n 9 r with Some (i, t :: r') => if is_op $"]" t then read_tail n (EIndex a i) r' else None | _ => None end
          else Some (a, l)
      | _ => Some (a, l)
      end
  end
(** arguments, up to the closing bracket *)
with read_args (n : nat) (l : list tok) {struct n} : option (list expr * list tok) :=
  match n with
  | O => None
  | S n =>
      match read_at n 9 l with
      | Some (a, t :: r) =>
          if is_op $")" t then Some ([a], r)
          else if is_op $"," t then match read_args n r with Some (l, r') => Some (a :: l, r') | None => None end
          else None
      | _ => None
      end
  end.

(** the words and stars of a declaration *)
Fixpoint declarator (l : list tok) : list tok * list tok :=
  match l with
  | TWord w :: r => let (a, b) := declarator r in (TWord w :: a, b)
  | TOp o :: r => if str_eqb o $"*" then let (a, b) := declarator r in (TOp o :: a, b) else ([], l)
  | _ => ([], l)
  end.
(** all but the last word, and that word *)
Definition last_word (l : list tok) : option (list tok * str) :=
  match rev l with TWord x :: r => Some (rev r, x) | _ => None end.
Definition semicolon {A} (f : expr -> A) (x : option (expr * list tok)) : option (A * list tok) :=
  match x with Some (e, t :: r) => if is_op $";" t then Some (f e, r) else None | _ => None end.

(** statements *)
Fixpoint read_s (n : nat) (l : list tok) {struct n} : option (stmt * list tok) :=
  match n with
  | O => None
  | S n =>
      let value := semicolon SExpr (read_at n 9 l) in
      (* a condition in brackets, and statements in braces *)
      let block r := match r with
                     | t :: u :: r1 =>
                         if is_op $"(" t then
                           match read_at n 9 (u :: r1) with
                           | Some (c, t1 :: t2 :: r2) =>
                               if is_op $")" t1 && is_op $"{" t2 then match read_ss n r2 with Some (b, r3) => Some (c, b, r3) | None => None end else None
                           | _ => None
                           end
                         else None
                     | _ => None
                     end in
      match l with
      | TWord w :: r =>
          if type_word w then
            match declarator l with
            | (d, r1) =>
                match last_word d with
                | Some (ty, x) =>
                    let (arr, r2) := match r1 with a :: b :: r2 => if is_op $"[" a && is_op $"]" b then (true, r2) else (false, r1) | _ => (false, r1) end in
                    match r2 with
                    | t :: r3 => if is_op $";" t then Some (SDecl ty x arr None, r3)
                                 else if is_op $"=" t then semicolon (fun e => SDecl ty x arr (Some e)) (read_at n 9 r3)
                                 else None
                    | [] => None
                    end
                | None => None
                end
            end
          else if str_eqb w $"if" then
            match block r with
            | Some (c, yes, t1 :: t2 :: r1) =>
                match t1 with
                | TWord e => if str_eqb e $"else" then
                               if is_op $"{" t2 then match read_ss n r1 with Some (no, r2) => Some (SIf c yes (Some no), r2) | None => None end
                               else None
                             else Some (SIf c yes None, t1 :: t2 :: r1)
                | _ => Some (SIf c yes None, t1 :: t2 :: r1)
                end
            | Some (c, yes, r1) => Some (SIf c yes None, r1)
            | None => None
            end
          else if str_eqb w $"return" then
            match r with
            | t :: r1 => if is_op $";" t then Some (SReturn None, r1) else semicolon (fun e => SReturn (Some e)) (read_at n 9 r)
            | [] => None
            end
          else if str_eqb w $"switch" then match block r with Some (c, b, r1) => Some (SSwitch c b, r1) | None => None end
          else if str_eqb w $"case" then
            match read_at n 9 r with Some (e, t :: r1) => if is_op $":" t then Some (SCase e, r1) else None | _ => None end
          else if str_eqb w $"default" then match r with t :: r1 => if is_op $":" t then Some (SDefault, r1) else None | [] => None end
          else if str_eqb w $"break" then match r with t :: r1 => if is_op $";" t then Some (SBreak, r1) else None | [] => None end
          else value
      | t :: r => if is_op $";" t then Some (SExpr ENone, r) else value
      | [] => None
      end
  end
(** statements up to the closing brace *)
with read_ss (n : nat) (l : list tok) {struct n} : option (list stmt * list tok) :=
  match n with
  | O => None
  | S n =>
      match l with
      | t :: r => if is_op $"}" t then Some ([], r)
                  else match read_s n l with
                       | Some (s, r1) => match read_ss n r1 with Some (b, r2) => Some (s :: b, r2) | None => None end
                       | None => None
                       end
      | [] => None
      end
  end.

(** up to the first opening bracket *)
Fixpoint before_bracket (l : list tok) : list tok * list tok :=
  match l with
  | t :: r => if is_op $"(" t then ([], r) else let (a, b) := before_bracket r in (t :: a, b)
  | [] => ([], [])
  end.
Fixpoint at_commas (l : list tok) : list (list tok) :=
  match l with
  | [] => [[]]
  | t :: r => match at_commas r with
              | a :: b => if is_op $"," t then [] :: a :: b else (t :: a) :: b
              | [] => [[t]]
              end
  end.
Fixpoint every {A B} (f : A -> option B) (l : list A) : option (list B) :=
  match l with
  | [] => Some []
  | x :: r => match f x, every f r with Some a, Some b => Some (a :: b) | _, _ => None end
  end.
Definition read_params (l : list tok) : option (list (list tok * str)) :=
  match l with [TWord w] => if str_eqb w $"void" then Some [] else None | _ => every last_word (at_commas l) end.
Definition read_function (n : nat) (l : list tok) : option func :=
  match before_bracket l with
  | (h, r) =>
      match last_word h, closing 0 r with
      | Some (head, x), Some (ps, t :: r1) =>
          if is_op $"{" t then
            match read_params ps, read_ss n r1 with
            | Some params, Some (body, []) => Some (mkfunc head x params body)
            | _, _ => None
            end
          else None
      | _, _ => None
      end
  end.
(** the tokens are read as this function, as this expression *)
Definition reads_function (l : list tok) (f : func) : Prop := exists n, forall m, n <= m -> read_function m l = Some f.
Definition reads_expr (l : list tok) (e : expr) : Prop := exists n, forall m, n <= m -> read_at m 9 l = Some (e, []).
(** brackets that match *)
Fixpoint level_at (d : nat) (l : list tok) : option nat :=
  match l with
  | [] => Some d
  | t :: r => if is_op $")" t then match d with O => None | S d => level_at d r end
              else if is_op $"(" t then level_at (S d) r else level_at d r
  end.
(** names that are no types and no keywords; types that begin with a type's name *)
Definition type_ok (ty : list tok) : bool := starts_type ty && match level_at 0 ty with Some 0 => true | _ => false end.
Definition name_ok (x : str) : bool := negb (type_word x) && negb (is_keyword x).
(** an expression that uses such names and types *)
Fixpoint named (e : expr) : bool :=
  match e with
  | ENone => true
  | EId x => name_ok x
  | EStr _ | EChr _ => true
  | EParen e => named e
  | ECall f args => name_ok f && forallb named args
  | EField e _ | EArrow e _ => named e
  | EIndex e i => named e && named i
  | ENot e | ENeg e | EDeref e | EAddr e => named e
  | ECast ty e => type_ok ty && named e
  | EBin _ a b | ESet a b | ECat a b => named a && named b
  | ESizeof e => negb (type_word $"sizeof") && named e
  end.
End Read.
