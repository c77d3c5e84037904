(** Proofs for C92: what the functions read from common.c and c.c do. *)
From Coq Require Import Ascii String List Bool Arith Lia ZArith.
From Verif Require Import Str StrFacts Parse ParamNames Prefix Substitute SpecPrefix SpecSubstitute Templates SpecTemplates CRuntime
  SpecCLang SpecCProg SpecCRun SpecBody CTemplate CTemplatePP CBody CBodyText CCode CBodyFuns.
Import ListNotations.
From Coq Require Import ZifyBool ZifyNat ZifyN.

(* ---------------------------------------------------------------- one step of the interpreter *)

Section Steps.
Variables (k : rconf) (w : world) (F : list func) (callf : str -> list val -> mem -> out val).
Notation eval := (eval k F callf).
Notation exec := (exec k F callf).

Definition need {A} (v : val) (x : out A) : out A := match v with VVoid | VUndef => Bad | _ => x end.
Fixpoint eargs (env : list (str * nat)) (l : list expr) (vs : list val) (m : mem) (K : list val -> mem -> out val) : out val :=
  match l with
  | [] => K vs m
  | a :: l => obind (eval env a m) (fun v m => need v (eargs env l (vs ++ [v]) m K))
  end.
Definition eval1 (env : list (str * nat)) (e : expr) (m : mem) : out val :=
  match e with
  | ENone => Done VVoid m
  | EId x => ret (read_name k F env x m) m
  | EStr raw => ret (option_map VText (text_value raw)) m
  | EChr raw => ret (option_map VInt (char_value raw)) m
  | EParen e => eval env e m
  | ECall f args => eargs env args [] m (callf f)
  | EField e x =>
      match e with
      | EId y => match lookup y env with
                 | Some a => ret (read_record a x m) m
                 | None => if str_eqb y $"gdo_hndl" then ret (get_member k x (g m)) m else Bad
                 end
      | _ => Bad
      end
  | EArrow e x =>
      obind (eval env e m) (fun v m =>
        match v with
        | VRef a => ret (read_record a x m) m
        | VMap name => if str_eqb x $"l_name" then Done (of_text name) m else Bad
        | _ => Bad
        end)
  | EIndex e i =>
      obind (eval env e m) (fun v m => obind (eval env i m) (fun n m =>
        match text_of v (g m), n with
        | Some t, VInt z => if Z.ltb z 0 then Bad else ret (option_map VInt (char_at t (Z.to_nat z))) m
        | _, _ => Bad
        end))
  | ENot e => obind (eval env e m) (fun v m => ret (option_map (fun b => b2v (negb b)) (truth v)) m)
  | ENeg e => obind (eval env e m) (fun v m => match v with VInt z => Done (VInt (- z)) m | _ => Bad end)
  | EDeref e => obind (eval env e m) (fun v m => match text_of v (g m) with Some t => ret (option_map VInt (char_at t 0)) m | None => Bad end)
  | EAddr e => match e with EId x => ret (option_map VRef (lookup x env)) m | _ => Bad end
  | ECast ty e => obind (eval env e m) (fun v m => Done (match ty with [TWord t] => if str_eqb t $"void" then VVoid else v | _ => v end) m)
  | EBin o a b =>
      obind (eval env a m) (fun v m =>
        if str_eqb o $"&&" then
          match truth v with Some true => obind (eval env b m) (fun v m => ret (option_map b2v (truth v)) m) | Some false => Done (VInt 0) m | None => Bad end
        else if str_eqb o $"||" then
          match truth v with Some false => obind (eval env b m) (fun v m => ret (option_map b2v (truth v)) m) | Some true => Done (VInt 1) m | None => Bad end
        else obind (eval env b m) (fun v' m => ret (binary o v v') m))
  | _ => eval env e m
  end.
Lemma eval_unfold env e m : eval env e m = eval1 env e m.
Proof.
  destruct e; try reflexivity. cbn [eval1 SpecCRun.eval].
  match goal with |- ?G args [] m = _ => assert (H : forall l vs m, G l vs m = eargs env l vs m (callf f)); [|apply H] end.
  induction l as [|a l IH]; intros vs m'; [reflexivity|]. cbn [eargs]. destruct (eval env a m') as [v m1| | |]; cbn [obind]; try reflexivity.
  destruct v; try reflexivity; apply IH.
Qed.
Lemma eval_set env x b m : eval env (ESet x b) m =
  obind (eval env b m) (fun v m =>
    need v (
        match x with
        | EId x => match lookup x env with
                   | Some i => match nth_error (cells m) i with Some (CVal _) => Done v (put_cell i (CVal v) m) | _ => Bad end
                   | None => Bad
                   end
        | EField (EId y) x =>
            match lookup y env with
            | Some i => match write_record i x v m with Some m => Done v m | None => Bad end
            | None => if str_eqb y $"gdo_hndl" then match set_member k x v (g m) with Some s => Done v (put s m) | None => Bad end else Bad
            end
        | EArrow p x =>
            obind (eval env p m) (fun r m => match r with VRef i => match write_record i x v m with Some m => Done v m | None => Bad end | _ => Bad end)
        | EIndex p i =>
            obind (eval env p m) (fun r m => obind (eval env i m) (fun n m =>
              match r, n, v with VBuf b, VInt 0, VInt 0 => Done v (put (set_content b [] (g m)) m) | _, _, _ => Bad end))
        | _ => Bad
        end)).
Proof. reflexivity. Qed.
Lemma eval_sizeof env e m : eval env (ESizeof e) m =
  match e with
  | EStr raw => ret (option_map (fun t => VInt (Z.of_nat (length t + 1))) (text_value raw)) m
  | EId x => match lookup x env with
             | Some a => match nth_error (cells m) a with Some (CArr t) => Done (VInt (Z.of_nat (length t + 1))) m | _ => Bad end
             | None => Bad
             end
  | EField (EId y) x =>
      match lookup y env with
      | Some _ => Bad
      | None => if str_eqb y $"gdo_hndl" && (str_eqb x $"libpath" || str_eqb x $"errbuf") then Done (VInt (Z.of_nat (k_buflen k))) m else Bad
      end
  | EIndex (EField (EId y) x) _ =>
      match lookup y env with
      | Some _ => Bad
      | None => if str_eqb y $"gdo_hndl" && (str_eqb x $"libpath" || str_eqb x $"errbuf") then Done (VInt 1) m else Bad
      end
  | _ => Bad
  end.
Proof. reflexivity. Qed.
Lemma eval_cat env a b m : eval env (ECat a b) m =
  obind (eval env a m) (fun v m => obind (eval env b m) (fun v' m => match v, v' with VText x, VText y => Done (VText (x ++ y)) m | _, _ => Bad end)).
Proof. reflexivity. Qed.

Definition decl_cell (array : bool) (v : val) (f : cell -> out flow) : out flow :=
  if array then match v with VText t => f (CArr t) | _ => Bad end else f (CVal v).
Definition exec1 (d : nat) (env : list (str * nat)) (l : list stmt) (m : mem) : out flow :=
  match l with
  | [] => Done FNext m
  | s :: r =>
      match s with
      | SExpr e => obind (eval env e m) (fun _ m => exec (S d) env r m)
      | SDecl ty x array init =>
          match init with
          | None =>
              if array then Bad else
              let '(env, m) := push x (match ty with [TWord t] => if str_eqb t $"Dl_info" then CRec [] else CVal VUndef | _ => CVal VUndef end) env m in exec (S d) env r m
          | Some e =>
              obind (eval env e m) (fun v m =>
                need v (decl_cell array v (fun c => let '(env, m) := push x c env m in exec (S d) env r m)))
          end
      | SIf c yes no =>
          obind (eval env c m) (fun v m =>
            match truth v with
            | Some b =>
                obind (exec d env (if b then yes else match no with Some l => l | None => [] end) m) (fun f m =>
                  match f with FNext => exec (S d) env r m | _ => Done f m end)
            | None => Bad
            end)
      | SReturn None => Done (FReturn VVoid) m
      | SReturn (Some e) => obind (eval env e m) (fun v m => Done (FReturn v) m)
      | SSwitch e body =>
          obind (eval env e m) (fun v m =>
            match v with
            | VInt z => obind (exec d env (case_body k z body) m) (fun f m => match f with FReturn _ => Done f m | _ => exec (S d) env r m end)
            | _ => Bad
            end)
      | SCase _ | SDefault => exec (S d) env r m
      | SBreak => Done FBreak m
      end
  end.
Lemma exec_unfold d env l m : exec (S d) env l m = exec1 d env l m.
Proof.
  destruct l as [|s r]; [reflexivity|]. destruct s as [e|ty x array init| | | | | |]; try reflexivity. destruct init as [e|]; [|reflexivity]. cbn [exec1 SpecCRun.exec]. destruct (eval env e m) as [v m1| | |]; try reflexivity.
  cbn [obind]. destruct v, array; reflexivity.
Qed.
End Steps.

(* ---------------------------------------------------------------- variables *)

Lemma cell_at {A} (i : nat) (cs l : list A) : nth_error (cs ++ l) (i + length cs) = nth_error l i.
Proof. induction cs as [|a cs IH]; cbn [app length]; [now rewrite Nat.add_0_r|]. rewrite Nat.add_succ_r. exact IH. Qed.
Lemma put_at i (cs l : list cell) v s : put_cell (i + length cs) v (mkmem s (cs ++ l)) = mkmem s (cs ++ (firstn i l ++ v :: skipn (S i) l)).
Proof.
  unfold put_cell; cbn [cells g]. f_equal. induction cs as [|a cs IH]; cbn [app length]; [now rewrite Nat.add_0_r|]. rewrite Nat.add_succ_r.
  cbn [firstn skipn app]. f_equal. exact IH.
Qed.
Lemma push_at x v env s cs l : push x v env (mkmem s (cs ++ l)) = ((x, length l + length cs) :: env, mkmem s (cs ++ (l ++ [v]))).
Proof. unfold push; cbn [cells g]. rewrite app_length, Nat.add_comm, app_assoc. reflexivity. Qed.
Lemma cut_at {A} (cs l : list A) : firstn (length cs) (cs ++ l) = cs.
Proof. rewrite firstn_app, Nat.sub_diag, firstn_all. cbn [firstn]. apply app_nil_r. Qed.

Section Calls.
Variables (k : rconf) (w : world) (F : list func).
Definition leave (cs : list cell) (fl : flow) (m2 : mem) : out val :=
  let m2 := mkmem (g m2) (firstn (length cs) (cells m2)) in
  match fl with FReturn v => Done v m2 | FNext => Done VVoid m2 | FBreak => Bad end.
Lemma call_unfold n f fn args s cs : find_func F f = Some fn ->
  call_func k w F (S n) f args (mkmem s cs) =
  match bind_params (f_params fn) args [] (mkmem s (cs ++ [])) with
  | Some (env, m1) => obind (exec k F (call_func k w F n) 10 env (f_body fn) m1) (leave cs)
  | None => Bad
  end.
Proof. intro E. cbn [call_func]. rewrite E, app_nil_r. destruct (bind_params _ _ _ _) as [[env m1]|]; reflexivity. Qed.
Lemma call_system n f args m : find_func F f = None -> call_func k w F (S n) f args m = system k w (call_func k w F n) f args m.
Proof. intro E. cbn [call_func]. now rewrite E. Qed.
Lemma leave_at cs v s l : leave cs (FReturn v) (mkmem s (cs ++ l)) = Done v (mkmem s cs).
Proof. unfold leave; cbn [cells g]. now rewrite cut_at. Qed.
Lemma leave_end cs s l : leave cs FNext (mkmem s (cs ++ l)) = Done VVoid (mkmem s cs).
Proof. unfold leave; cbn [cells g]. now rewrite cut_at. Qed.
End Calls.

(* ---------------------------------------------------------------- the tactic: evaluate at the head of the left side *)

Ltac hd t :=
  lazymatch t with
  | obind ?x _ => hd x
  | ret ?x _ => hd x
  | option_map _ ?x => hd x
  | truth ?x => hd x
  | text_of ?x _ => hd x
  | negb ?x => hd x
  | andb ?x _ => hd x
  | orb ?x _ => hd x
  | compare_eq ?x _ => hd x
  | as_ptr ?x => hd x
  | need ?x _ => hd x
  | decl_cell ?x _ _ => hd x
  | of_text ?x => hd x
  | of_ptr ?x => hd x
  | match ?x with _ => _ end => hd x
  | _ => t
  end.
Ltac by_lit h :=
  let r := eval cbn [lookup str_eqb Ascii.eqb Bool.eqb andb Str.lit list_ascii_of_string length app] in h in tryif constr_eq h r then fail else change h with r.
Ltac calls h := fail.
Ltac consts0 h := fail.
Ltac iotas := cbn [need decl_cell as_ptr compare_eq obind ret option_map truth text_of negb b2v of_text of_ptr cells g put orb andb app Z.eqb Pos.eqb].
Lemma b2v_truth b : truth (b2v b) = Some b.
Proof. now destruct b. Qed.
Ltac step1 :=
  lazymatch goal with |- ?L = _ =>
    let h := hd L in
    lazymatch h with
    | eval ?k ?F ?cf ?env (ESet ?a ?b) ?m => rewrite (eval_set k F cf env a b m)
    | eval ?k ?F ?cf ?env (ESizeof ?a) ?m => rewrite (eval_sizeof k F cf env a m)
    | eval ?k ?F ?cf ?env (ECat ?a ?b) ?m => rewrite (eval_cat k F cf env a b m)
    | eval ?k ?F ?cf ?env ?e ?m =>
        rewrite (eval_unfold k F cf env e m);
        let r := eval cbn [eval1 eargs app] in (eval1 k F cf env e m) in change (eval1 k F cf env e m) with r
    | exec ?k ?F ?cf (S ?d) ?env ?l ?m =>
        let go := (rewrite (exec_unfold k F cf d env l m);
          let r := eval cbn [exec1] in (exec1 k F cf d env l m) in change (exec1 k F cf d env l m) with r) in
        lazymatch l with _ :: _ => go | [] => go | _ => progress iotas end
    | push ?x ?v ?env (mkmem ?s (?cs ++ ?l)) => rewrite (push_at x v env s cs l); cbn [length app]
    | nth_error (cells (mkmem ?s (?cs ++ ?l))) (?i + length ?cs) => change (cells (mkmem s (cs ++ l))) with (cs ++ l); rewrite (cell_at i cs l); cbn [nth_error]
    | nth_error (?cs ++ ?l) (?i + length ?cs) => rewrite (cell_at i cs l); cbn [nth_error]
    | read_name _ _ _ _ _ => unfold read_name
    | read_cell _ _ => unfold read_cell
    | read_record _ _ _ => unfold read_record
    | write_record _ _ _ _ => unfold write_record
    | lookup _ _ => first [calls h | by_lit h]
    | str_eqb (Str.lit _) (Str.lit _) => by_lit h
    | text_value (Str.lit ?x) => let r := eval vm_compute in (existsb (Ascii.eqb bslash) (Str.lit x)) in
        replace (text_value (Str.lit x)) with (if r then None else Some (Str.lit x)) by (vm_compute; reflexivity)
    | leave ?cs (FReturn ?v) (mkmem ?s (?cs ++ ?l)) => rewrite (leave_at cs v s l)
    | leave ?cs FNext (mkmem ?s (?cs ++ ?l)) => rewrite (leave_end cs s l)
    | b2v _ => first [rewrite b2v_truth | progress iotas]
    | Done _ _ => progress iotas
    | Some _ => progress iotas
    | None => progress iotas
    | VInt _ => progress iotas
    | VNull => progress iotas
    | VPtr _ => progress iotas
    | VText _ => progress iotas
    | true => progress iotas
    | false => progress iotas
    | FNext => progress iotas
    | FReturn _ => progress iotas
    | FBreak => progress iotas
    | CVal _ => progress iotas
    | call_func _ _ _ _ _ _ _ => calls h
    | constant _ _ => first [consts0 h | calls h]
    | get_member _ _ _ => first [consts0 h | calls h]
    | set_member _ _ _ _ => first [consts0 h | calls h]
    | binary _ _ _ => consts0 h
    | char_at _ _ => consts0 h
    | _ => first [ progress iotas | calls h ]
    end end.
Ltac put_cells := repeat match goal with |- context [put_cell (?i + length ?cs) ?v (mkmem ?s (?cs ++ ?l))] => rewrite (put_at i cs l v s); cbn [firstn skipn app] end.
Ltac puts := repeat match goal with
  | |- context [put ?s (mkmem ?a ?b)] => change (put s (mkmem a b)) with (mkmem s b)
  | |- context [g (mkmem ?a ?b)] => change (g (mkmem a b)) with a
  | |- context [VInt (if ?b then 1%Z else 0%Z)] => change (VInt (if b then 1%Z else 0%Z)) with (b2v b)
  end.
Ltac run := repeat (step1; puts; put_cells).

(** names from the headers *)
Lemma constant_0 k : constant k $"0" = Some (VInt 0). Proof. reflexivity. Qed.
Lemma constant_1 k : constant k $"1" = Some (VInt 1). Proof. reflexivity. Qed.
Lemma constant_null k : constant k $"NULL" = Some VNull. Proof. reflexivity. Qed.
Lemma constant_true k : constant k $"true" = Some (VInt 1). Proof. reflexivity. Qed.
Lemma constant_false k : constant k $"false" = Some (VInt 0). Proof. reflexivity. Qed.
Lemma constant_stderr k : constant k $"stderr" = Some VStream. Proof. reflexivity. Qed.
Lemma constant_linkmap k : constant k $"RTLD_DI_LINKMAP" = Some (VInt 2). Proof. reflexivity. Qed.
Lemma constant_newlm k : constant k $"LM_ID_NEWLM" = Some (VInt (-1)). Proof. reflexivity. Qed.
Lemma constant_flags k : constant k $"GDO_DEFAULT_FLAGS" = Some (VInt (k_flags k)). Proof. reflexivity. Qed.
Lemma constant_buflen k : constant k $"GDO_BUFLEN" = Some (VInt (Z.of_nat (k_buflen k))). Proof. reflexivity. Qed.
Lemma constant_lib k : constant k $"GDO_DEFAULT_LIB" = Some (VText (k_lib k)). Proof. reflexivity. Qed.
Lemma constant_prefix k : constant k $"GDO_COMMON_PREFIX" = Some (VText (k_prefix k)). Proof. reflexivity. Qed.
Lemma constant_force k : constant k $"gdo_force_free_lib" = None. Proof. reflexivity. Qed.
Lemma member_handle k s : get_member k $"handle" s = Some (of_ptr (s_handle s)). Proof. reflexivity. Qed.
Lemma member_reg k s : get_member k $"free_lib_reg" s = Some (b2v (s_reg s)). Proof. reflexivity. Qed.
Lemma member_libpath k s : get_member k $"libpath" s = Some (VBuf Libpath). Proof. reflexivity. Qed.
Lemma member_errbuf k s : get_member k $"errbuf" s = Some (VBuf Errbuf). Proof. reflexivity. Qed.
Lemma set_handle k v s : set_member k $"handle" v s = option_map (fun p => with_handle p s) (as_ptr v). Proof. reflexivity. Qed.
Lemma set_reg k s : set_member k $"free_lib_reg" (VInt 1) s = Some (with_reg s). Proof. reflexivity. Qed.
Lemma bin_eq a b : binary $"==" a b = option_map b2v (compare_eq a b). Proof. reflexivity. Qed.
Lemma bin_ne a b : binary $"!=" a b = option_map (fun x => b2v (negb x)) (compare_eq a b). Proof. reflexivity. Qed.
Lemma bin_plus x y : binary $"+" (VInt x) (VInt y) = Some (VInt (x + y)). Proof. reflexivity. Qed.
Lemma bin_minus x y : binary $"-" (VInt x) (VInt y) = Some (VInt (x - y)). Proof. reflexivity. Qed.
Lemma bin_div1 x : binary $"/" (VInt x) (VInt 1) = Some (VInt x). Proof. unfold binary; cbn. now rewrite Z.quot_1_r. Qed.
Lemma bin_gt x y : binary $">" (VInt x) (VInt y) = Some (b2v (Z.gtb x y)). Proof. reflexivity. Qed.
Lemma bin_text t y : binary $"+" (VText t) (VInt y) = if Z.leb 0 y && Z.leb y (Z.of_nat (length t)) then Some (VText (skipn (Z.to_nat y) t)) else None.
Proof. reflexivity. Qed.
Lemma bin_text_ok t n : n <= length t -> binary $"+" (VText t) (VInt (Z.of_nat n)) = Some (VText (skipn n t)).
Proof. intro L. rewrite bin_text. replace (Z.leb 0 (Z.of_nat n) && Z.leb (Z.of_nat n) (Z.of_nat (length t))) with true by lia. now rewrite Nat2Z.id. Qed.
Lemma char_nil : char_at [] 0 = Some 0%Z. Proof. reflexivity. Qed.
Lemma char_cons a t : char_at (a :: t) 0 = Some (Z.of_nat (nat_of_ascii a)). Proof. reflexivity. Qed.
Ltac consts h :=
  lazymatch h with
  | char_at [] 0 => rewrite char_nil
  | char_at (_ :: _) 0 => rewrite char_cons
  | constant _ (Str.lit ?x) =>
      lazymatch x with
      | "0"%string => rewrite constant_0 | "1"%string => rewrite constant_1 | "NULL"%string => rewrite constant_null | "true"%string => rewrite constant_true
      | "false"%string => rewrite constant_false | "stderr"%string => rewrite constant_stderr | "RTLD_DI_LINKMAP"%string => rewrite constant_linkmap
      | "LM_ID_NEWLM"%string => rewrite constant_newlm | "GDO_DEFAULT_FLAGS"%string => rewrite constant_flags | "GDO_BUFLEN"%string => rewrite constant_buflen
      | "GDO_DEFAULT_LIB"%string => rewrite constant_lib | "GDO_COMMON_PREFIX"%string => rewrite constant_prefix
      | "gdo_force_free_lib"%string => rewrite constant_force
      end
  | get_member _ (Str.lit ?x) _ =>
      lazymatch x with
      | "handle"%string => rewrite member_handle | "free_lib_reg"%string => rewrite member_reg | "libpath"%string => rewrite member_libpath
      | "errbuf"%string => rewrite member_errbuf
      end
  | set_member _ (Str.lit ?x) _ _ => lazymatch x with "handle"%string => rewrite set_handle | "free_lib_reg"%string => rewrite set_reg end
  | binary (Str.lit ?x) _ _ =>
      lazymatch x with
      | "=="%string => rewrite bin_eq | "!="%string => rewrite bin_ne | "+"%string => first [rewrite bin_plus | rewrite bin_text_ok by assumption] | "-"%string => rewrite bin_minus
      | "/"%string => rewrite bin_div1 | ">"%string => rewrite bin_gt
      end
  end.
Ltac consts0 h ::= consts h.
#[global] Opaque call_func.
