(** What C functions do, for C92: an interpreter of the syntax trees of SpecCProg on the state of the generated library.  The functions
    of the system (dlopen, snprintf, ...) are given by the same world as in CRuntime.v.  Definitions only.

    Simplifications: integers are unbounded; the two buffers hold C strings (what follows the terminator is not looked at);
    arguments of a call are evaluated from left to right; what is written to stderr in a row is one event; pointers and integers
    that do not fit an operation give [Bad], as does everything undefined. *)
From Coq Require Import Ascii String List Bool Arith ZArith.
From Verif Require Import Str CRuntime SpecCLang SpecCProg.
Import ListNotations.

Inductive buffer := Libpath | Errbuf.
Inductive val :=
| VInt (z : Z)
| VNull
| VPtr (p : ptr)               (* a handle or the address of a symbol *)
| VText (s : str)              (* a string (or the rest of one) that is not changed *)
| VBuf (b : buffer)            (* a buffer of gdo_hndl *)
| VRef (a : nat)               (* a local variable *)
| VMap (name : option str)     (* a link map, with its l_name *)
| VFun (f : str)
| VStream
| VVoid
| VUndef.
(** a local variable: a value, a struct, an array of characters *)
Inductive cell := CVal (v : val) | CRec (l : list (str * val)) | CArr (s : str).
Record mem := mkmem { g : st; cells : list cell }.
(** how an evaluation ends: with a value, with the end of the program, undefined or not understood, too deep *)
Inductive out (A : Type) := Done (a : A) (m : mem) | Ended (s : st) | Bad | Deep.
Arguments Done {A} a m. Arguments Ended {A} s. Arguments Bad {A}. Arguments Deep {A}.
Definition obind {A B} (x : out A) (f : A -> mem -> out B) : out B :=
  match x with Done a m => f a m | Ended s => Ended s | Bad => Bad | Deep => Deep end.

Section Program.
Variables (k : rconf) (w : world) (funs : list func).

Definition put (s : st) (m : mem) : mem := mkmem s (cells m).
Definition put_cell (a : nat) (c : cell) (m : mem) : mem := mkmem (g m) (firstn a (cells m) ++ c :: skipn (S a) (cells m)).
Definition b2v (b : bool) : val := VInt (if b then 1 else 0).
Definition truth (v : val) : option bool :=
  match v with
  | VInt z => Some (negb (Z.eqb z 0))
  | VNull => Some false
  | VPtr _ | VText _ | VBuf _ | VRef _ | VMap _ | VFun _ | VStream => Some true
  | VVoid | VUndef => None
  end.
Definition content (b : buffer) (s : st) : str := match b with Libpath => s_libpath s | Errbuf => s_errbuf s end.
Definition set_content (b : buffer) (t : str) (s : st) : st := match b with Libpath => with_libpath t s | Errbuf => with_errbuf t s end.
(** the string a pointer points to *)
Definition text_of (v : val) (s : st) : option str := match v with VText t => Some t | VBuf b => Some (content b s) | _ => None end.
Definition of_text (t : option str) : val := match t with Some t => VText (c_str t) | None => VNull end.
Definition of_ptr (p : option ptr) : val := match p with Some p => VPtr p | None => VNull end.
Definition char_at (t : str) (i : nat) : option Z := option_map (fun c => Z.of_nat (nat_of_ascii c)) (nth_error (t ++ [nul]) i).
(** the value of a character literal *)
Definition char_value (raw : str) : option Z :=
  match raw with
  | [c] => if Ascii.eqb c bslash then None else Some (Z.of_nat (nat_of_ascii c))
  | [c; d] => if Ascii.eqb c bslash && Ascii.eqb d "n" then Some (Z.of_nat (nat_of_ascii nl)) else None
  | _ => None
  end.
(** the value of a string literal: those with escapes are not looked at *)
Definition text_value (raw : str) : option str := if existsb (Ascii.eqb bslash) raw then None else Some raw.

Fixpoint index_of (n : str) (l : list str) : option nat :=
  match l with [] => None | x :: r => if str_eqb n x then Some 0 else option_map S (index_of n r) end.
(** the rest of a name behind a prefix *)
Definition strip (p x : str) : option str := if starts_with p x then Some (skipn (length p) x) else None.
(** names from the headers: macros of the system and of common.h, the enumeration GDO_LOAD_x *)
Definition constant (x : str) : option val :=
  match strip $"GDO_LOAD_" x with
  | Some n => option_map (fun i => VInt (Z.of_nat i)) (index_of n (k_names k))
  | None =>
      lookup x [($"0", VInt 0); ($"1", VInt 1); ($"NULL", VNull); ($"true", VInt 1); ($"false", VInt 0); ($"stderr", VStream);
        ($"RTLD_DI_LINKMAP", VInt 2); ($"LM_ID_NEWLM", VInt (-1));
        ($"GDO_DEFAULT_FLAGS", VInt (k_flags k)); ($"GDO_BUFLEN", VInt (Z.of_nat (k_buflen k)));
        ($"GDO_DEFAULT_LIB", VText (k_lib k)); ($"GDO_COMMON_PREFIX", VText (k_prefix k))]
  end.

(** the members of gdo_hndl *)
Definition get_member (x : str) (s : st) : option val :=
  if str_eqb x $"handle" then Some (of_ptr (s_handle s))
  else if str_eqb x $"free_lib_reg" then Some (b2v (s_reg s))
  else if str_eqb x $"libpath" then Some (VBuf Libpath)
  else if str_eqb x $"errbuf" then Some (VBuf Errbuf)
  else match strip $"GDO_PTR_" x with
       | Some n => option_map (fun i => of_ptr (get_ptr i s)) (index_of n (k_names k))
       | None => None
       end.
Definition as_ptr (v : val) : option (option ptr) := match v with VNull => Some None | VPtr p => Some (Some p) | _ => None end.
Definition set_member (x : str) (v : val) (s : st) : option st :=
  if str_eqb x $"handle" then option_map (fun p => with_handle p s) (as_ptr v)
  else if str_eqb x $"free_lib_reg" then
    match truth v with
    | Some b => Some (mkst (s_handle s) b (s_ptrs s) (s_libpath s) (s_errbuf s) (s_trace s) (s_end s))
    | None => None
    end
  else match strip $"GDO_PTR_" x with
       | Some n => match index_of n (k_names k), as_ptr v with Some i, Some p => Some (set_ptr i p s) | _, _ => None end
       | None => None
       end.

(** printf: %s and %d *)
Fixpoint format (fmt : str) (args : list val) (s : st) : option str :=
  match fmt with
  | [] => Some []
  | c :: r =>
      if Ascii.eqb c "%" then
        match r with
        | d :: r =>
            if Ascii.eqb d "s" then
              match args with a :: args => match text_of a s, format r args s with Some x, Some y => Some (x ++ y) | _, _ => None end | [] => None end
            else if Ascii.eqb d "d" then
              match args with VInt z :: args => option_map (app (int_to_string z)) (format r args s) | _ => None end
            else if Ascii.eqb d "%" then option_map (cons c) (format r args s)
            else None
        | [] => None
        end
      else option_map (cons c) (format r args s)
  end.
Definition is_buffer (b : buffer) (v : val) : bool := match v, b with VBuf Libpath, Libpath | VBuf Errbuf, Errbuf => true | _, _ => false end.

(** the functions of the system; [callf]: calls of functions of the program, for exit *)
Definition system (callf : str -> list val -> mem -> out val) (f : str) (args : list val) (m : mem) : out val :=
  let s := g m in
  let is x := str_eqb f $x in
  if is "dlopen"%string then
    match args with
    | [VText file; VInt flags] => let r := w_open w (s_trace s) file flags false in Done (of_ptr r) (put (log (EvOpen file flags false r) s) m)
    | _ => Bad
    end
  else if is "dlmopen"%string then
    match args with
    | [VInt (-1); VText file; VInt flags] => let r := w_open w (s_trace s) file flags true in Done (of_ptr r) (put (log (EvOpen file flags true r) s) m)
    | _ => Bad
    end
  else if is "dlsym"%string then
    match args with
    | [VPtr h; VText name] => let r := w_sym w (s_trace s) h name in Done (of_ptr r) (put (log (EvSym h name r) s) m)
    | _ => Bad
    end
  else if is "dlclose"%string then
    match args with
    | [VPtr h] => let r := w_close w (s_trace s) h in Done (VInt (if r then 0 else -1)) (put (log (EvClose h r) s) m)
    | _ => Bad
    end
  else if is "dlerror"%string then
    match args with
    | [] => let r := w_error w (s_trace s) in Done (of_text r) (put (log (EvError r) s) m)
    | _ => Bad
    end
  else if is "dlinfo"%string then
    match args with
    | [VPtr h; VInt 2; VRef a] =>
        let r := w_info w (s_trace s) h in
        let m := put (log (EvInfo h r) s) m in
        match r with Some name => Done (VInt 0) (put_cell a (CVal (VMap name)) m) | None => Done (VInt (-1)) m end
    | _ => Bad
    end
  else if is "dladdr"%string then
    match args with
    | [VPtr p; VRef a] =>
        let r := w_addr w (s_trace s) p in
        let m := put (log (EvAddr p r) s) m in
        match r with Some name => Done (VInt 1) (put_cell a (CRec [($"dli_fname", of_text name)]) m) | None => Done (VInt 0) m end
    | _ => Bad
    end
  else if is "atexit"%string then
    match args with
    | [VFun h] => if str_eqb h $"gdo_force_free_lib" then let r := w_atexit w (s_trace s) in Done (VInt (if r then 0 else 1)) (put (log (EvAtexit r) s) m) else Bad
    | _ => Bad
    end
  else if is "snprintf"%string then
    match args with
    | VBuf b :: VInt n :: VText fmt :: args =>
        if existsb (is_buffer b) args || negb (Z.ltb 0 n && Z.leb n (Z.of_nat (k_buflen k))) then Bad
        else match format fmt args s with
             | Some t => Done (VInt (Z.of_nat (length t))) (put (set_content b (firstn (Z.to_nat n - 1) (c_str t)) s) m)
             | None => Bad
             end
    | _ => Bad
    end
  else if is "fprintf"%string then
    match args with
    | VStream :: VText fmt :: args =>
        match format fmt args s with Some t => Done (VInt (Z.of_nat (length t))) (put (log (EvPrint t) s) m) | None => Bad end
    | _ => Bad
    end
  else if is "fputc"%string then
    match args with
    | [VInt c; VStream] =>
        match s_trace s with
        | EvPrint t :: r => Done (VInt c) (put (mkst (s_handle s) (s_reg s) (s_ptrs s) (s_libpath s) (s_errbuf s) (EvPrint (t ++ [ascii_of_nat (Z.to_nat c)]) :: r) (s_end s)) m)
        | _ => Done (VInt c) (put (log (EvPrint [ascii_of_nat (Z.to_nat c)]) s) m)
        end
    | _ => Bad
    end
  else if is "strlen"%string then
    match args with [a] => match text_of a s with Some t => Done (VInt (Z.of_nat (length t))) m | None => Bad end | _ => Bad end
  else if is "strcmp"%string then
    match args with
    | [a; b] => match text_of a s, text_of b s with Some x, Some y => Done (VInt (if str_eqb x y then 0 else 1)) m | _, _ => Bad end
    | _ => Bad
    end
  else if is "strncmp"%string then
    match args with
    | [a; b; VInt n] =>
        match text_of a s, text_of b s with
        | Some x, Some y => if Z.ltb n 0 then Bad else Done (VInt (if str_eqb (firstn (Z.to_nat n) x) (firstn (Z.to_nat n) y) then 0 else 1)) m
        | _, _ => Bad
        end
    | _ => Bad
    end
  else if is "strstr"%string then
    match args with
    | [a; b] =>
        match text_of a s, text_of b s with
        | Some x, Some y => Done (match find y x with Some i => VText (skipn i x) | None => VNull end) m
        | _, _ => Bad
        end
    | _ => Bad
    end
  else if is "memcpy"%string then
    match args with
    | [VBuf b; VText t; VInt n] =>
        if Z.eqb n (Z.of_nat (length t + 1)) && Nat.leb (length t + 1) (k_buflen k) then Done (VBuf b) (put (set_content b t s) m) else Bad
    | _ => Bad
    end
  else if is "exit"%string then
    match args with
    | [VInt c] =>
        (fix handlers (n : nat) (m : mem) : out val :=
           match n with
           | O => Ended (with_end (Exited (Z.to_nat c)) (g m))
           | S n => obind (callf $"gdo_force_free_lib" [] m) (fun _ m => handlers n m)
           end) (registrations (s_trace s)) m
    | _ => Bad
    end
  else if is "abort"%string then match args with [] => Ended (with_end Aborted s) | _ => Bad end
  else if is "_gdo_fullpath_procmap"%string then
    (* the function of common.c:113-183, as in CRuntime.v; see C46 for its loop *)
    match args with
    | [VMap _; VBuf Libpath; VInt n] =>
        if Z.eqb n (Z.of_nat (k_buflen k)) then match fullpath_procmap k w s with Ok (b, s) => Done (b2v b) (put s m) | _ => Bad end else Bad
    | _ => Bad
    end
  else Bad.

(** binary operators but && and || *)
Definition compare_eq (a b : val) : option bool :=
  match a, b with
  | VInt x, VInt y => Some (Z.eqb x y)
  | VNull, VNull => Some true
  | VNull, (VPtr _ | VText _ | VBuf _ | VMap _) | (VPtr _ | VText _ | VBuf _ | VMap _), VNull => Some false
  | _, _ => None
  end.
Definition binary (o : str) (a b : val) : option val :=
  if str_eqb o $"==" then option_map b2v (compare_eq a b)
  else if str_eqb o $"!=" then option_map (fun x => b2v (negb x)) (compare_eq a b)
  else match a, b with
       | VInt x, VInt y =>
           if str_eqb o $"+" then Some (VInt (x + y))
           else if str_eqb o $"-" then Some (VInt (x - y))
           else if str_eqb o $"/" then if Z.eqb y 0 then None else Some (VInt (Z.quot x y))
           else if str_eqb o $"<" then Some (b2v (Z.ltb x y))
           else if str_eqb o $">" then Some (b2v (Z.gtb x y))
           else None
       | VText t, VInt y => if str_eqb o $"+" && Z.leb 0 y && Z.leb y (Z.of_nat (length t)) then Some (VText (skipn (Z.to_nat y) t)) else None
       | _, _ => None
       end.

Section Calls.
Variable callf : str -> list val -> mem -> out val.

Definition ret (v : option val) (m : mem) : out val := match v with Some v => Done v m | None => Bad end.
Definition read_cell (a : nat) (m : mem) : option val :=
  match nth_error (cells m) a with
  | Some (CVal VUndef) | None => None
  | Some (CVal v) => Some v
  | Some (CArr s) => Some (VText s)
  | Some (CRec _) => None
  end.
Definition find_func (f : str) : option func := List.find (fun x => str_eqb f (f_name x)) funs.
Definition read_name (env : list (str * nat)) (x : str) (m : mem) : option val :=
  match lookup x env with
  | Some a => read_cell a m
  | None => match constant x with Some v => Some v | None => option_map (fun _ => VFun x) (find_func x) end
  end.
Definition read_record (a : nat) (x : str) (m : mem) : option val :=
  match nth_error (cells m) a with
  | Some (CRec l) => match lookup x l with Some VUndef | None => None | Some v => Some v end
  | _ => None
  end.
(** assignment to a member of a local struct *)
Definition write_record (a : nat) (x : str) (v : val) (m : mem) : option mem :=
  match nth_error (cells m) a with
  | Some (CRec _) => Some (put_cell a (CRec [(x, v)]) m)
  | _ => None
  end.

Fixpoint eval (env : list (str * nat)) (e : expr) (m : mem) {struct e} : out val :=
  match e with
  | ENone => Done VVoid m
  | EId x => ret (read_name env x m) m
  | EStr raw => ret (option_map VText (text_value raw)) m
  | EChr raw => ret (option_map VInt (char_value raw)) m
  | EParen e => eval env e m
  | ECall f args =>
      (fix go (l : list expr) (vs : list val) (m : mem) : out val :=
         match l with
         | [] => callf f vs m
         | a :: l => obind (eval env a m) (fun v m => match v with VVoid | VUndef => Bad | _ => go l (vs ++ [v]) m end)
         end) args [] m
  | EField e x =>
      match e with
      | EId y => match lookup y env with
                 | Some a => ret (read_record a x m) m
                 | None => if str_eqb y $"gdo_hndl" then ret (get_member x (g m)) m else Bad
                 end
      | _ => Bad
      end
  | EArrow e x =>
      obind (eval env e m) (fun v m =>
        match v with
        | VRef a => ret (read_record a x m) m
        | VMap name => if str_eqb x $"l_name" then Done (of_text name) m else Bad
        | _ => Bad
        end)
  | EIndex e i =>
      obind (eval env e m) (fun v m => obind (eval env i m) (fun n m =>
        match text_of v (g m), n with
        | Some t, VInt z => if Z.ltb z 0 then Bad else ret (option_map VInt (char_at t (Z.to_nat z))) m
        | _, _ => Bad
        end))
  | ENot e => obind (eval env e m) (fun v m => ret (option_map (fun b => b2v (negb b)) (truth v)) m)
  | ENeg e => obind (eval env e m) (fun v m => match v with VInt z => Done (VInt (- z)) m | _ => Bad end)
  | EDeref e => obind (eval env e m) (fun v m => match text_of v (g m) with Some t => ret (option_map VInt (char_at t 0)) m | None => Bad end)
  | EAddr e => match e with EId x => ret (option_map VRef (lookup x env)) m | _ => Bad end
  | ECast ty e => obind (eval env e m) (fun v m => Done (match ty with [TWord t] => if str_eqb t $"void" then VVoid else v | _ => v end) m)
  | EBin o a b =>
      obind (eval env a m) (fun v m =>
        if str_eqb o $"&&" then
          match truth v with Some true => obind (eval env b m) (fun v m => ret (option_map b2v (truth v)) m) | Some false => Done (VInt 0) m | None => Bad end
        else if str_eqb o $"||" then
          match truth v with Some false => obind (eval env b m) (fun v m => ret (option_map b2v (truth v)) m) | Some true => Done (VInt 1) m | None => Bad end
        else obind (eval env b m) (fun v' m => ret (binary o v v') m))
  | ESet a b =>
      obind (eval env b m) (fun v m =>
        match v with
        | VVoid | VUndef => Bad
        | _ =>
            match a with
            | EId x => match lookup x env with
                       | Some i => match nth_error (cells m) i with Some (CVal _) => Done v (put_cell i (CVal v) m) | _ => Bad end
                       | None => Bad
                       end
            | EField (EId y) x =>
                match lookup y env with
                | Some i => match write_record i x v m with Some m => Done v m | None => Bad end
                | None => if str_eqb y $"gdo_hndl" then match set_member x v (g m) with Some s => Done v (put s m) | None => Bad end else Bad
                end
            | EArrow p x =>
                obind (eval env p m) (fun r m => match r with VRef i => match write_record i x v m with Some m => Done v m | None => Bad end | _ => Bad end)
            | EIndex p i =>
                (* only a zero in front of a buffer *)
                obind (eval env p m) (fun r m => obind (eval env i m) (fun n m =>
                  match r, n, v with VBuf b, VInt 0, VInt 0 => Done v (put (set_content b [] (g m)) m) | _, _, _ => Bad end))
            | _ => Bad
            end
        end)
  | ESizeof e =>
      match e with
      | EStr raw => ret (option_map (fun t => VInt (Z.of_nat (length t + 1))) (text_value raw)) m
      | EId x => match lookup x env with
                 | Some a => match nth_error (cells m) a with Some (CArr t) => Done (VInt (Z.of_nat (length t + 1))) m | _ => Bad end
                 | None => Bad
                 end
      | EField (EId y) x =>
          match lookup y env with
          | Some _ => Bad
          | None => if str_eqb y $"gdo_hndl" && (str_eqb x $"libpath" || str_eqb x $"errbuf") then Done (VInt (Z.of_nat (k_buflen k))) m else Bad
          end
      | EIndex (EField (EId y) x) _ =>
          match lookup y env with
          | Some _ => Bad
          | None => if str_eqb y $"gdo_hndl" && (str_eqb x $"libpath" || str_eqb x $"errbuf") then Done (VInt 1) m else Bad
          end
      | _ => Bad
      end
  | ECat a b =>
      obind (eval env a m) (fun v m => obind (eval env b m) (fun v' m =>
        match v, v' with VText x, VText y => Done (VText (x ++ y)) m | _, _ => Bad end))
  end.

(** statements: what comes next *)
Inductive flow := FNext | FReturn (v : val) | FBreak.
Definition push (x : str) (c : cell) (env : list (str * nat)) (m : mem) : list (str * nat) * mem :=
  ((x, length (cells m)) :: env, mkmem (g m) (cells m ++ [c])).
(** the statements of a switch from the label on *)
Fixpoint from_case (z : Z) (l : list stmt) : option (list stmt) :=
  match l with
  | [] => None
  | SCase (EId x) :: r => match constant x with Some (VInt y) => if Z.eqb z y then Some r else from_case z r | _ => from_case z r end
  | _ :: r => from_case z r
  end.
Fixpoint from_default (l : list stmt) : list stmt :=
  match l with [] => [] | SDefault :: r => r | _ :: r => from_default r end.
Definition case_body (z : Z) (l : list stmt) : list stmt := match from_case z l with Some r => r | None => from_default l end.

(** [depth] bounds the nesting of statements *)
Fixpoint exec (depth : nat) (env : list (str * nat)) (l : list stmt) (m : mem) {struct depth} : out flow :=
  match depth with
  | O => Deep
  | S d =>
      (fix go (l : list stmt) (env : list (str * nat)) (m : mem) {struct l} : out flow :=
         match l with
         | [] => Done FNext m
         | s :: r =>
             match s with
             | SExpr e => obind (eval env e m) (fun _ m => go r env m)
             | SDecl ty x array init =>
                 match init with
                 | None =>
                     if array then Bad else
                     let '(env, m) := push x (match ty with [TWord t] => if str_eqb t $"Dl_info" then CRec [] else CVal VUndef | _ => CVal VUndef end) env m in go r env m
                 | Some e =>
                     obind (eval env e m) (fun v m =>
                       match v with
                       | VVoid | VUndef => Bad
                       | VText t => let '(env, m) := push x (if array then CArr t else CVal v) env m in go r env m
                       | _ => if array then Bad else let '(env, m) := push x (CVal v) env m in go r env m
                       end)
                 end
             | SIf c yes no =>
                 obind (eval env c m) (fun v m =>
                   match truth v with
                   | Some b =>
                       obind (exec d env (if b then yes else match no with Some l => l | None => [] end) m) (fun f m =>
                         match f with FNext => go r env m | _ => Done f m end)
                   | None => Bad
                   end)
             | SReturn None => Done (FReturn VVoid) m
             | SReturn (Some e) => obind (eval env e m) (fun v m => Done (FReturn v) m)
             | SSwitch e body =>
                 obind (eval env e m) (fun v m =>
                   match v with
                   | VInt z => obind (exec d env (case_body z body) m) (fun f m => match f with FReturn _ => Done f m | _ => go r env m end)
                   | _ => Bad
                   end)
             | SCase _ | SDefault => go r env m
             | SBreak => Done FBreak m
             end
         end) l env m
  end.
End Calls.

Fixpoint bind_params (ps : list (list tok * str)) (vs : list val) (env : list (str * nat)) (m : mem) : option (list (str * nat) * mem) :=
  match ps, vs with
  | [], [] => Some (env, m)
  | p :: ps, v :: vs => let '(env, m) := push (snd p) (CVal v) env m in bind_params ps vs env m
  | _, _ => None
  end.
(** a call; the local variables of the function are gone when it returns *)
Fixpoint call_func (n : nat) (f : str) (args : list val) (m : mem) {struct n} : out val :=
  match n with
  | O => Deep
  | S n =>
      match find_func f with
      | Some fn =>
          match bind_params (f_params fn) args [] m with
          | Some (env, m1) =>
              obind (exec (call_func n) 10 env (f_body fn) m1) (fun fl m2 =>
                let m2 := mkmem (g m2) (firstn (length (cells m)) (cells m2)) in
                match fl with FReturn v => Done v m2 | FNext => Done VVoid m2 | FBreak => Bad end)
          | None => Bad
          end
      | None => system (call_func n) f args m
      end
  end.

(* ---------------------------------------------------------------- the API *)

Definition arg (a : option str) : val := of_text a.
(** the function that stands for an operation of CRuntime.v, and its arguments *)
Definition api_call (o : op) (s : st) : option (str * list val) :=
  match o with
  | LoadLib => Some ($"gdo_load_lib", [])
  | LoadLibAndSymbols => Some ($"gdo_load_lib_and_symbols", [])
  | LoadLibName f => Some ($"gdo_load_lib_name", [arg f])
  | LoadLibNameAndSymbols f => Some ($"gdo_load_lib_name_and_symbols", [arg f])
  | LoadLibArgs f fl ns => Some ($"gdo_load_lib_args", [arg f; VInt fl; b2v ns])
  | IsLoaded => Some ($"gdo_lib_is_loaded", [])
  | FreeLib => Some ($"gdo_free_lib", [])
  | ForceFreeLib => Some ($"gdo_force_free_lib", [])
  | EnableAutorelease => Some ($"gdo_enable_autorelease", [])
  | LoadAllSymbols => Some ($"gdo_load_all_symbols", [])
  | LoadSymbol n => Some ($"gdo_load_symbol", [VInt n])
  | LoadSymbolName n => Some ($"gdo_load_symbol_name", [arg n])
  | AllLoaded => Some ($"gdo_all_symbols_loaded", [])
  | NoneLoaded => Some ($"gdo_no_symbols_loaded", [])
  | AnyLoaded => Some ($"gdo_any_symbol_loaded", [])
  | LastError => Some ($"gdo_last_error", [])
  | LibraryPath => Some ($"gdo_library_path", [])
  | Wrapped i _ => match nth_error (k_names k) i with
                   | Some name => Some ($"_gdo_wrap_check_loaded", [of_ptr (get_ptr i s); VInt (Z.of_nat i); VText name])
                   | None => None
                   end
  | Exit c => Some ($"exit", [VInt (Z.of_nat c)])
  end.
(** what the caller sees: booleans, strings, nothing *)
Inductive answer := ABool | AText | ANothing.
Definition answer_of (o : op) : answer :=
  match o with
  | ForceFreeLib | Wrapped _ _ | Exit _ => ANothing
  | LastError | LibraryPath => AText
  | _ => ABool
  end.
Definition seen (a : answer) (v : val) (s : st) : option value :=
  match a with
  | ABool => option_map VBool (truth v)
  | AText => match v with VNull => Some (VStr None) | _ => option_map (fun t => VStr (Some t)) (text_of v s) end
  | ANothing => Some VNone
  end.
(** an operation on the generated functions; a wrapper calls the function its symbol points to after the check *)
Definition c_call (o : op) (s : st) : res (value * st) :=
  match api_call o s with
  | None => Ok (VNone, s)
  | Some (f, args) =>
      match call_func 20 f args (mkmem s []) with
      | Done v m =>
          match o with
          | Wrapped i a => match get_ptr i (g m) with Some p => Ok (VNone, log (EvCall p a) (g m)) | None => UB end
          | _ => match seen (answer_of o) v (g m) with Some x => Ok (x, g m) | None => UB end
          end
      | Ended s => Ok (VNone, s)
      | Bad => UB
      | Deep => Fuel
      end
  end.
Definition c_step (s : st) (o : op) : res st := match s_end s with Some _ => Ok s | None => r <- c_call o s ;; Ok (snd r) end.
Definition c_run (ops : list op) : res st := fold_left (fun r o => s <- r ;; c_step s o) ops (Ok (init k)).
End Program.
