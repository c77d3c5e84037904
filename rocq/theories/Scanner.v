(** The compiled scanner: /repo/src/lex.yy.c, the function yylex() that flex made from lex.l.  Definitions only.
    Positions are offsets from the begin of the token (yytext_ptr).  Not modelled: the size of the buffer and its growth
    (the buffer is a list), yy_hold_char (which only puts a NUL behind the token while an action runs), read errors. *)
From Coq Require Import Ascii String List Bool Arith NArith.
From Verif Require Import Str Lex LexTables.
Import ListNotations.
Local Open Scope N_scope.
Local Notation "' p <- r ;; k" := (bind r (fun p => k)) (at level 100, p pattern, r at next level, right associativity).

(** reading a table outside its bounds is undefined *)
Definition at_ (t : list N) (i : N) : res N := match nth_error t (N.to_nat i) with Some x => Ok x | None => UB end.

Definition jam : N := 261.               (* lex.yy.c:967 *)
Definition end_of_buffer : N := 50.      (* YY_END_OF_BUFFER, :375 *)

(** the compressed transition table, :961-966, :1511-1516, :1544-1549.  [Fuel]: the chain of defaults does not end *)
Fixpoint follow (fuel : nat) (st cl : N) : res N :=
  match fuel with
  | O => Fuel
  | S f =>
      b <- at_ yy_base st ;;
      k <- at_ yy_chk (b + cl) ;;
      if N.eqb k st then at_ yy_nxt (b + cl)
      else
        d <- at_ yy_def st ;;
        if N.leb 262 d then (m <- at_ yy_meta cl ;; follow f d m) else follow f d cl
  end.
Definition next_state (st cl : N) : res N := follow 300 st cl.

(** yy_last_accepting_state and yy_last_accepting_cpos, :658-659; [None]: not set since the token began (using the values of an
    earlier token would be wrong) *)
Definition last_accepting := option (N * nat).
(** :956-960 *)
Definition note_accept (st : N) (cp : nat) (last : last_accepting) : res last_accepting :=
  a <- at_ yy_accept st ;; Ok (if N.eqb a 0 then last else Some (st, cp)).

(** the byte at a position of the buffer; behind the data there are two NUL bytes, :1489-1490 *)
Definition byte_at (text : str) (cp : nat) : res ascii :=
  match nth_error text cp with
  | Some c => Ok c
  | None => if Nat.leb cp (length text + 1) then Ok nul else UB
  end.

(** yy_match, :953-967 *)
Fixpoint match_loop (fuel : nat) (text : str) (st : N) (cp : nat) (last : last_accepting) : res last_accepting :=
  match fuel with
  | O => Fuel
  | S f =>
      c <- byte_at text cp ;;
      cl <- at_ yy_ec (code c) ;;
      last <- note_accept st cp last ;;
      st' <- next_state st cl ;;
      if N.eqb st' jam then Ok last else match_loop f text st' (S cp) last
  end.

(** yy_get_previous_state, :1496-1520: go over [todo], which begins at [cp] *)
Fixpoint previous_state (st : N) (cp : nat) (todo : str) (last : last_accepting) {struct todo} : res (N * last_accepting) :=
  match todo with
  | [] => Ok (st, last)
  | c :: todo' =>
      cl <- (if Ascii.eqb c nul then Ok 1 else at_ yy_ec (code c)) ;;
      last <- note_accept st cp last ;;
      st' <- next_state st cl ;;
      previous_state st' (S cp) todo' last
  end.

(** the state of the scanner between two tokens: start condition and yy_at_bol, yylineno, the data in the buffer from the
    next token on, what is still to be read from the file, and how often was read *)
Record ystate := mky { y_cond : cond; y_bol : bool; y_line : N; y_text : str; y_more : str; y_reads : nat }.

(** the numbers of the start conditions, :715-721, and BEGIN, :115 *)
Definition cond_number (c : cond) : N :=
  match c with INITIAL => 0 | AST => 1 | OPTION => 2 | COMMENT => 3 | C_COMMENT => 4 | PRE => 5 | PRE_COMMENT => 6 end.
Definition start_state (c : cond) (bol : bool) : N := 1 + 2 * cond_number c + (if bol then 1 else 0).    (* :950-951 *)

(** the actions, :999-1212 *)
Definition switch (act : N) : option action :=
  match act with
  | 1 => Some AstBegin | 2 => Some TokFuncVar | 3 => Some TokParmVar | 4 => Some Skip | 5 => Some Skip
  | 6 => Some (Begin OPTION) | 7 => Some Skip | 8 => Some TokOption | 9 => Some (Begin INITIAL) | 10 => Some Skip
  | 11 => Some (Begin COMMENT) | 12 => Some (Begin COMMENT) | 13 => Some Skip | 14 => Some (Begin INITIAL) | 15 => Some Skip
  | 16 => Some (Begin C_COMMENT) | 17 => Some (Begin C_COMMENT) | 18 => Some (Begin INITIAL) | 19 => Some (Begin INITIAL)
  | 20 => Some Skip | 21 => Some Skip
  | 22 => Some (Begin PRE) | 23 => Some (Begin PRE_COMMENT) | 24 => Some (Begin C_COMMENT) | 25 => Some (Begin COMMENT)
  | 26 => Some (Begin COMMENT) | 27 => Some Skip | 28 => Some (Begin INITIAL) | 29 => Some Skip
  | 30 => Some (Begin PRE) | 31 => Some (Begin INITIAL) | 32 => Some (Begin C_COMMENT) | 33 => Some Skip
  | 34 => Some Skip | 35 => Some Skip | 36 => Some Skip | 37 => Some TokStruct | 38 => Some TokUnion | 39 => Some TokEnum
  | 40 => Some TokTypedef | 41 => Some TokId | 42 => Some TokOther | 43 => Some TokOther | 44 => Some TokCurlyOpen
  | 45 => Some TokCurlyClose | 46 => Some TokEqual | 47 => Some TokSemicolon | 48 => Some TokIllegal | 49 => Some Echo
  | _ => None
  end.

Section Reading.
(** how many bytes the [n]-th fread delivers, :838; at least one before the end of the file and never more than there are *)
Variable chunk : nat -> nat.
Definition read (n : nat) (more : str) : str * str :=
  let k := Nat.max 1 (chunk n) in (firstn k more, skipn k more).

(** where yylex() goes on: yy_match or yy_find_action *)
Inductive label := YyMatch (st : N) (cp : nat) | YyFindAction (st : N) (cp : nat).
(** a token: number of the rule and length; or the end of the file *)
Inductive found := Rule (act : N) (len : nat) | EndOfFile.

(** one token, :952-1281; [start] is the state to begin with.  [Fuel] at the end: the jumps do not end *)
Fixpoint scan (fuel : nat) (start : N) (l : label) (last : last_accepting) (text more : str) (reads : nat) : res (found * str * str * nat) :=
  match fuel with
  | O => Fuel
  | S f =>
      match l with
      | YyMatch st cp =>
          last <- match_loop (length text + 3) text st cp last ;;
          match last with
          | Some (st, cp) => scan f start (YyFindAction st cp) last text more reads                       (* :968-969 *)
          | None => UB
          end
      | YyFindAction st cp =>
          act <- at_ yy_accept st ;;
          if N.eqb act 0 then                                                                              (* :992-997 *)
            match last with
            | Some (st, cp) => scan f start (YyFindAction st cp) last text more reads
            | None => UB
            end
          else if N.eqb act end_of_buffer then
            let amount := (cp - 1)%nat in                                                                  (* :1226 *)
            if Nat.leb cp (length text) then                                                               (* :1256: really a NUL *)
              '(st, last) <- previous_state start 0 (firstn amount text) last ;;
              last <- note_accept st amount last ;;                                                        (* yy_try_NUL_trans, :1538-1553 *)
              st' <- next_state st 1 ;;
              if N.eqb st' jam
              then match last with
                   | Some (st, cp) => scan f start (YyFindAction st cp) last text more reads               (* :1284-1288 *)
                   | None => UB
                   end
              else scan f start (YyMatch st' (S amount)) last text more reads                              (* :1276-1281 *)
            else if Nat.ltb (length text + 1) cp then UB                                                   (* :1374-1376: fatal error *)
            else
              let '(got, more') := read reads more in                                                      (* yy_get_next_buffer *)
              let kept := firstn amount text in                                                            (* :1398-1401 *)
              match got with
              | [] => if Nat.eqb amount 0 then Ok (EndOfFile, kept, more', S reads)                        (* :1453-1458, :1293-1313 *)
                      else '(st, last) <- previous_state start 0 kept last ;;                              (* EOB_ACT_LAST_MATCH, :1332-1340 *)
                           scan f start (YyFindAction st (length kept)) last kept more' (S reads)
              | _ => let text := (kept ++ got)%list in                                                     (* EOB_ACT_CONTINUE_SCAN, :1322-1330 *)
                     '(st, last) <- previous_state start 0 kept last ;;
                     scan f start (YyMatch st amount) last text more' (S reads)
              end
          else Ok (Rule act cp, text, more, reads)
      end
  end.

(** one turn of the loop of yylex(), :942-1353: scan a token, count its lines if the rule can match line ends (:979-986), set
    yy_at_bol (YY_RULE_SETUP, :896-900) and run the action.  [None]: end of the file, which ends every start condition
    (:1214-1221) *)
Definition turn (s : ystate) : res (option lstep * ystate) :=
  let start := start_state (y_cond s) (y_bol s) in
  '(fd, text, more, reads) <- scan (4 * (length (y_text s) + length (y_more s)) + 10) start (YyMatch start 0) None (y_text s) (y_more s) (y_reads s) ;;
  match fd with
  | EndOfFile => Ok (None, mky (y_cond s) (y_bol s) (y_line s) text more reads)
  | Rule act len =>
      eol <- at_ yy_rule_can_match_eol act ;;
      let t := firstn len text in
      let line := if N.eqb eol 0 then y_line s else y_line s + newlines t in
      match switch act with
      | None => UB                                                                                         (* :1350: fatal error *)
      | Some a =>
          let bol := match t with [] => y_bol s | _ => ends_nl t end in
          let k := act_cond a line (y_cond s) in
          Ok (Some (mkstep t a (act_token a t line) (skipn len text ++ more) (mkl k bol line)), mky k bol line (skipn len text) more reads)
      end
  end.

(** all tokens of a file: call yylex() until the end of the file or an error *)
Fixpoint turns (fuel : nat) (s : ystate) : res (list lstep) :=
  match fuel with
  | O => Fuel
  | S f =>
      '(x, s) <- turn s ;;
      match x with
      | None => Ok []
      | Some x =>
          match s_tok x with
          | Some (T_ERROR _) => Ok [x]
          | _ => xs <- turns f s ;; Ok (x :: xs)
          end
      end
  end.
(** yy_start 1, yy_at_bol 1, yylineno 1, an empty buffer: :918-935, yy_init_buffer *)
Definition y_init (file : str) : ystate := mky INITIAL true 1 [] file 0.
Definition scan_file (file : str) : res (list token) :=
  xs <- turns (S (length file)) (y_init file) ;; Ok (tokens_of xs).
End Reading.
