(** How the scanning of options reads an argument list. *)
From Coq Require Import Ascii String List Bool Arith Lia.
From Verif Require Import Str StrFacts Prefix ParamNames Options SpecOptions.
Import ListNotations.

(* ---------------------------------------------------------------- characters and pointers *)

Lemma char_at_app p q : char_at (p ++ q) (length p) = Ok (match q with [] => nul | c :: _ => c end).
Proof.
  unfold char_at. rewrite app_length. replace (length p <=? length p + length q) with true by (symmetry; apply Nat.leb_le; lia).
  rewrite app_nth2 by lia. rewrite Nat.sub_diag. destruct q; reflexivity.
Qed.
Lemma skipn_here {A} (p q : list A) : skipn (length p) (p ++ q) = q.
Proof. induction p; [reflexivity|exact IHp]. Qed.
Lemma ptr_add_app p q : ptr_add (p ++ q) (length p) = Ok q.
Proof.
  unfold ptr_add. rewrite app_length. replace (length p <=? length p + length q) with true by (symmetry; apply Nat.leb_le; lia).
  rewrite skipn_here. reflexivity.
Qed.
Lemma argv_at_app pre (c : str) rest : argv_at (pre ++ c :: rest) (length pre) = Ok c.
Proof. unfold argv_at. rewrite nth_error_app2 by lia. rewrite Nat.sub_diag. reflexivity. Qed.

Lemma nul_eqb (c : ascii) : c <> nul -> Ascii.eqb c nul = false.
Proof. intros H. destruct (Ascii.eqb_spec c nul); congruence. Qed.

(** the three shapes of an argument *)
Lemma shape a : argument a ->
  (option_like a = false /\ prefix_len a = Ok 0) \/
  (exists long p, a = dashes long ++ p /\ p <> [] /\ (long = false -> starts_with $"-" p = false) /\
     prefix_len a = Ok (length (dashes long)) /\ option_like a = true).
Proof.
  intros H. destruct a as [|c0 a]; [left; split; reflexivity|].
  destruct (Ascii.eqb_spec c0 "-") as [->|N0].
  2:{ left. split.
      - unfold option_like. cbn [starts_with lit list_ascii_of_string].
        destruct (Ascii.eqb_spec "-"%char c0); [congruence|reflexivity].
      - unfold prefix_len, char_at. cbn [length Nat.leb nth bind]. destruct (Ascii.eqb_spec c0 "-"); [congruence|reflexivity]. }
  destruct a as [|c1 a]; [left; split; reflexivity|].
  assert (H1 : c1 <> nul) by (intros ->; apply H; right; left; reflexivity).
  destruct (Ascii.eqb_spec c1 "-") as [->|N1].
  - destruct a as [|c2 a]; [left; split; reflexivity|].
    assert (H2 : c2 <> nul) by (intros ->; apply H; right; right; left; reflexivity).
    right. exists true, (c2 :: a). split; [reflexivity|]. split; [discriminate|]. split; [discriminate|]. split; [|reflexivity].
    unfold prefix_len, char_at. cbn [length Nat.leb nth bind Ascii.eqb Bool.eqb andb negb].
    rewrite (nul_eqb _ H2). reflexivity.
  - right. exists false, (c1 :: a). split; [reflexivity|]. split; [discriminate|]. split; [|split].
    + intros _. cbn [starts_with lit list_ascii_of_string]. destruct (Ascii.eqb_spec "-"%char c1); [congruence|reflexivity].
    + unfold prefix_len, char_at. cbn [length Nat.leb nth bind].
      replace (Ascii.eqb "-" "-") with true by reflexivity.
      rewrite (nul_eqb _ H1). replace (Ascii.eqb c1 "-") with false by (destruct (Ascii.eqb_spec c1 "-"); congruence).
      reflexivity.
    + unfold option_like.
      replace (starts_with $"-" ("-"%char :: c1 :: a)) with true by reflexivity.
      replace (str_eqb ("-"%char :: c1 :: a) $"-") with false by reflexivity.
      cbn [str_eqb lit list_ascii_of_string].
      replace (Ascii.eqb c1 "-") with false by (destruct (Ascii.eqb_spec c1 "-"); congruence).
      rewrite andb_false_r. reflexivity.
Qed.

(* ---------------------------------------------------------------- one test of the chain *)

Definition here (pre : list str) (long : bool) (p : str) : opt_args :=
  mkargs (length pre) (dashes long ++ p) (length (dashes long)).

Lemma flag_here pre long p opt : opt <> [] -> flag (here pre long p) opt = Ok (str_eqb p opt).
Proof.
  intros H. destruct opt as [|c opt]; [congruence|]. unfold flag, here. cbn [a_pfxlen a_current].
  destruct long; cbn [dashes lit list_ascii_of_string length app].
  - change (ptr_add ("-"%char :: "-"%char :: p) 2) with (ptr_add ($"--" ++ p) (length $"--")). rewrite ptr_add_app. reflexivity.
  - change (ptr_add ("-"%char :: p) 1) with (ptr_add ($"-" ++ p) (length $"-")). rewrite ptr_add_app. reflexivity.
Qed.

(** the value found by [get_arg], or that there is none, or that it is lacking *)
Inductive found := FNo | FVal (next : bool) (v : str) | FLack (why : str).
Definition lookup (long : bool) (p opt : str) (rest : list str) : found :=
  if Nat.eqb (length opt) 1 && long then FNo
  else if starts_with opt p then
    match skipn (length opt) p with
    | [] => match rest with
            | [] => FLack $"' requires an argument"
            | [] :: _ => FLack $"' has an empty argument"
            | v :: _ => FVal true v
            end
    | c :: t => if Nat.eqb (length opt) 1 then FVal false (c :: t)
                else if Ascii.eqb c "=" then match t with [] => FLack $"' has an empty argument" | _ => FVal false t end
                else FNo
    end
  else FNo.
(** the prefix as the messages show it *)
Definition shown (long : bool) (p : str) : str := if long then $"-" ++ firstn 1 p else $"-".

Definition found_result (pre : list str) (long : bool) (p opt : str) (f : found) : res (nat * option str) :=
  match f with
  | FNo => Ok (length pre, None)
  | FVal next v => Ok (if next then length pre + 1 else length pre, Some v)
  | FLack why => opt_error $"option '" (shown long p) opt why
  end.

Lemma arg_value_here pre pfx a p rest opt : argument p -> opt <> [] ->
  arg_value (pre ++ a :: rest) (length pre) pfx p opt =
  match lookup false p opt rest with
  | FNo => Ok (length pre, None)
  | FVal next v => Ok (if next then length pre + 1 else length pre, Some v)
  | FLack why => opt_error $"option '" pfx opt why
  end.
Proof.
  intros Hp Ho. unfold arg_value, lookup. rewrite andb_false_r.
  destruct (starts_with opt p) eqn:S; cbn [negb]; [|reflexivity].
  apply starts_with_spec in S. destruct S as [q ->]. rewrite char_at_app, ptr_add_app, skipn_here.
  destruct q as [|c t].
  - cbn [bind]. replace (Ascii.eqb nul nul) with true by reflexivity.
    rewrite app_length. cbn [length]. destruct rest as [|v rest].
    + cbn [length]. replace (length pre + 1 <=? length pre + 1) with true by (symmetry; apply Nat.leb_le; lia). reflexivity.
    + cbn [length]. replace (length pre + S (S (length rest)) <=? length pre + 1) with false by (symmetry; apply Nat.leb_gt; lia).
      replace (argv_at (pre ++ a :: v :: rest) (length pre + 1)) with (Ok v).
      * cbn [bind]. destruct v; reflexivity.
      * symmetry. replace (length pre + 1) with (length (pre ++ [a])) by (rewrite app_length; reflexivity).
        replace (pre ++ a :: v :: rest) with ((pre ++ [a]) ++ v :: rest) by (rewrite <- app_assoc; reflexivity).
        apply argv_at_app.
  - cbn [bind]. rewrite nul_eqb. 2:{ intros ->. apply Hp. apply in_or_app. right. left. reflexivity. }
    destruct (length opt =? 1); [reflexivity|].
    destruct (Ascii.eqb c "="); [|reflexivity].
    replace (ptr_add (opt ++ c :: t) (length opt + 1)) with (Ok t).
    + cbn [bind]. destruct t; reflexivity.
    + symmetry. replace (length opt + 1) with (length (opt ++ [c])) by (rewrite app_length; reflexivity).
      replace (opt ++ c :: t) with ((opt ++ [c]) ++ t) by (rewrite <- app_assoc; reflexivity). apply ptr_add_app.
Qed.

Lemma get_arg_here pre long p rest opt : argument p -> opt <> [] -> p <> [] ->
  get_arg (pre ++ (dashes long ++ p) :: rest) (here pre long p) opt =
  found_result pre long p opt (lookup long p opt rest).
Proof.
  intros Hp Ho Hn. destruct opt as [|o opt']; [congruence|]. set (opt := o :: opt') in *.
  transitivity (if (length opt =? 1) && long then Ok (length pre, None) else
    arg_value (pre ++ (dashes long ++ p) :: rest) (length pre) (shown long p) p opt).
  - destruct long.
    + destruct p as [|c p]; [congruence|].
      assert (c <> nul) by (intros ->; apply Hp; left; reflexivity).
      unfold get_arg. cbn [here a_pfxlen a_current a_iter dashes length lit list_ascii_of_string app]. unfold opt at 1. fold opt.
      cbn [Nat.eqb negb]. destruct (length opt =? 1) eqn:L; [reflexivity|]. cbn [andb].
      unfold char_at, ptr_add. cbn [length Nat.leb bind nth skipn shown firstn app lit list_ascii_of_string].
      cbn [c_str]. replace (Ascii.eqb "-" nul) with false by reflexivity. rewrite nul_eqb by assumption. reflexivity.
    + unfold get_arg. cbn [here a_pfxlen a_current a_iter dashes length lit list_ascii_of_string app]. unfold opt at 1. fold opt.
      cbn [Nat.eqb negb]. rewrite andb_false_r.
      unfold char_at, ptr_add. cbn [length Nat.leb bind nth skipn shown firstn app lit list_ascii_of_string]. reflexivity.
  - rewrite arg_value_here by assumption. unfold lookup, found_result. rewrite andb_false_r.
    destruct ((length opt =? 1) && long); reflexivity.
Qed.

(* ---------------------------------------------------------------- the chain *)

Definition item_effect (i : item) (s : settings) : res (outcome settings) :=
  match i with
  | IFile _ => Ok (Done s)
  | IFlag _ o => Ok (flag_effect o s)
  | IValue _ o _ v => value_effect o v s
  | ILetter o _ v => Ok (Done (letter_effect o v s))
  end.
Definition is_file (i : item) : bool := match i with IFile _ => true | _ => false end.

Definition good (b : branch) : Prop :=
  match b with
  | BFlag n act => exists o, n = flag_name o /\ forall s, act s = flag_effect o s
  | BArg n act => (exists o, n = value_name o /\ forall v s, act v s = value_effect o v s) \/
                  (exists o, n = letter_name o /\ forall v s, act v s = Ok (Done (letter_effect o v s)))
  end.
Definition misses (long : bool) (p : str) (rest : list str) (b : branch) : Prop :=
  match b with
  | BFlag n _ => p <> n
  | BArg n _ => lookup long p n rest = FNo
  end.

Lemma bind_ok {A} (r : res A) : bind r Ok = r.
Proof. destruct r; reflexivity. Qed.

Lemma good_branches : Forall good branches.
Proof.
  unfold branches.
  repeat match goal with
  | |- Forall _ [] => constructor
  | |- Forall _ (BFlag ?n _ :: _) => constructor;
      [match n with
       | $"?" => exists OQuestion | $"help" => exists OHelp | $"full-help" => exists OFullHelp
       | $"ast-all-symbols" => exists OAstAll | $"force" => exists OForce | $"ignore-options" => exists OIgnore
       | $"line" => exists OLine | $"no-date" => exists ONoDate | $"no-pragma-once" => exists ONoPragma
       | $"print-symbols" => exists OPrint | $"separate" => exists OSeparate | $"version" => exists OVersion
       end; split; intros; reflexivity |]
  | |- Forall _ (BArg ?n _ :: _) => constructor;
      [match n with
       | $"D" => right; exists OLetterD | $"P" => right; exists OLetterP | $"S" => right; exists OLetterS
       | $"dump-templates" => left; exists ODump | $"format" => left; exists OFormat | $"include" => left; exists OInclude
       | $"library" => left; exists OLibrary | $"out" => left; exists OOut | $"prefix" => left; exists OPrefix
       | $"param" => left; exists OParam | $"template" => left; exists OTemplate
       | $"templates-path" => left; exists OTemplatesPath
       end; split; intros; try reflexivity |]
  end.
  all: unfold setsR, opt_format, opt_param, value_effect.
  - destruct (read_format v); reflexivity.
  - destruct (read_param v); reflexivity.
Qed.

Lemma flag_nonempty o : flag_name o <> []. Proof. destruct o; discriminate. Qed.
Lemma value_nonempty o : value_name o <> []. Proof. destruct o; discriminate. Qed.
Lemma letter_nonempty o : letter_name o <> []. Proof. destruct o; discriminate. Qed.
Lemma value_long o : Nat.eqb (length (value_name o)) 1 = false. Proof. destruct o; reflexivity. Qed.
Lemma letter_short o : Nat.eqb (length (letter_name o)) 1 = true. Proof. destruct o; reflexivity. Qed.

Lemma lookup_value long p o rest :
  match lookup long p (value_name o) rest with
  | FNo => True
  | FVal next v => v <> [] /\ exists rest', (dashes long ++ p) :: rest = spell (IValue long o (negb next) v) ++ rest'
  | FLack _ => lacks_value ((dashes long ++ p) :: rest)
  end.
Proof.
  unfold lookup. rewrite value_long. cbn [andb].
  destruct (starts_with (value_name o) p) eqn:S; [|exact I].
  apply starts_with_spec in S. destruct S as [q ->]. rewrite skipn_here.
  destruct q as [|c t].
  - rewrite app_nil_r. destruct rest as [|[|v0 v] rest]; [constructor|constructor|].
    split; [discriminate|]. exists rest. reflexivity.
  - destruct (Ascii.eqb_spec c "=") as [->|]; [|exact I]. destruct t as [|t0 t].
    + apply value_empty.
    + split; [discriminate|]. exists rest. reflexivity.
Qed.
Lemma lookup_letter long p o rest :
  match lookup long p (letter_name o) rest with
  | FNo => True
  | FVal next v => v <> [] /\ exists rest', (dashes long ++ p) :: rest = spell (ILetter o (negb next) v) ++ rest'
  | FLack _ => lacks_value ((dashes long ++ p) :: rest)
  end.
Proof.
  unfold lookup. rewrite letter_short. cbn [andb]. destruct long; [exact I|].
  destruct (starts_with (letter_name o) p) eqn:S; [|exact I].
  apply starts_with_spec in S. destruct S as [q ->]. rewrite skipn_here.
  destruct q as [|c t].
  - rewrite app_nil_r. destruct rest as [|[|v0 v] rest]; [constructor|constructor|].
    split; [discriminate|]. exists rest. reflexivity.
  - split; [discriminate|]. exists rest. reflexivity.
Qed.

Lemma dispatch_here pre long p rest bs s : argument p -> p <> [] -> Forall good bs ->
  let a : str := dashes long ++ p in
  let r := dispatch (pre ++ a :: rest) (here pre long p) bs s in
  (exists i rest', is_file i = false /\ item_ok i /\ a :: rest = spell i ++ rest' /\
     r = bind (item_effect i s) (fun o => Ok (length pre + length (spell i) - 1, o))) \/
  (lacks_value (a :: rest) /\ exists opt why, r = opt_error $"option '" (shown long p) opt why /\
     lookup long p opt rest = FLack why /\
     In opt (map value_name [ODump; OFormat; OInclude; OLibrary; OOut; OPrefix; OParam; OTemplate; OTemplatesPath] ++
             map letter_name [OLetterD; OLetterP; OLetterS])) \/
  (r = Err ($"unknown option: " ++ a) /\ Forall (misses long p rest) bs).
Proof.
  intros Hp Hn G. cbv zeta. induction G as [|b bs Hb G IH].
  - right. right. split; [reflexivity|constructor].
  - destruct b as [n act|n act].
    + destruct Hb as (o & -> & E). cbn [dispatch]. rewrite flag_here by apply flag_nonempty. cbn [bind].
      destruct (str_eqb p (flag_name o)) eqn:Q.
      * apply str_eqb_eq in Q. subst p. left. exists (IFlag long o), rest.
        split; [reflexivity|]. split; [exact I|]. split; [reflexivity|].
        cbn [item_effect bind spell length]. rewrite E. unfold here. cbn [a_iter]. replace (length pre + 1 - 1) with (length pre) by lia. reflexivity.
      * destruct IH as [IH|[IH|[IH F]]]; [left; exact IH|right; left; exact IH|right; right].
        split; [exact IH|]. constructor; [|exact F]. cbn [misses]. intros ->. rewrite str_eqb_refl in Q. discriminate.
    + assert (Hne : n <> []) by (destruct Hb as [(o & -> & _)|(o & -> & _)]; [apply value_nonempty|apply letter_nonempty]).
      cbn [dispatch]. rewrite get_arg_here by assumption.
      destruct (lookup long p n rest) as [|next v|why] eqn:L; cbn [found_result bind].
      * change (mkargs (length pre) (a_current (here pre long p)) (a_pfxlen (here pre long p))) with (here pre long p).
        destruct IH as [IH|[IH|[IH F]]]; [left; exact IH|right; left; exact IH|right; right].
        split; [exact IH|]. constructor; [exact L|exact F].
      * left. destruct Hb as [(o & -> & E)|(o & -> & E)].
        -- pose proof (lookup_value long p o rest) as V. rewrite L in V. destruct V as (V & rest' & R).
           exists (IValue long o (negb next) v), rest'. split; [reflexivity|]. split; [exact V|]. split; [exact R|].
           cbn [item_effect]. rewrite E. destruct next; cbn [negb spell length].
           ++ replace (length pre + 2 - 1) with (length pre + 1) by lia. reflexivity.
           ++ replace (length pre + 1 - 1) with (length pre) by lia. reflexivity.
        -- pose proof (lookup_letter long p o rest) as V. rewrite L in V. destruct V as (V & rest' & R).
           exists (ILetter o (negb next) v), rest'. split; [reflexivity|]. split; [exact V|]. split; [exact R|].
           cbn [item_effect]. rewrite E. destruct next; cbn [negb spell length].
           ++ replace (length pre + 2 - 1) with (length pre + 1) by lia. reflexivity.
           ++ replace (length pre + 1 - 1) with (length pre) by lia. reflexivity.
      * right. left. destruct Hb as [(o & -> & E)|(o & -> & E)].
        -- pose proof (lookup_value long p o rest) as V. rewrite L in V. split; [exact V|].
           exists (value_name o), why. split; [reflexivity|]. split; [exact L|]. apply in_or_app. left. apply in_map. destruct o; cbn [In]; tauto.
        -- pose proof (lookup_letter long p o rest) as V. rewrite L in V. split; [exact V|].
           exists (letter_name o), why. split; [reflexivity|]. split; [exact L|]. apply in_or_app. right. apply in_map. destruct o; cbn [In]; tauto.
Qed.

(** nothing in the chain matches exactly when the argument is not a documented option *)
Lemma dashes_inj l1 l2 p q : starts_with $"-" p = false -> starts_with $"-" q = false ->
  dashes l1 ++ p = dashes l2 ++ q -> l1 = l2 /\ p = q.
Proof.
  intros P Q E. destruct l1, l2; cbn [dashes app lit list_ascii_of_string] in E.
  - split; [reflexivity|]. now injection E.
  - injection E as E. subst q. discriminate Q.
  - injection E as E. subst p. discriminate P.
  - split; [reflexivity|]. now injection E.
Qed.
Lemma flag_dash o r : starts_with $"-" (flag_name o ++ r) = false. Proof. destruct o; reflexivity. Qed.
Lemma value_dash o r : starts_with $"-" (value_name o ++ r) = false. Proof. destruct o; reflexivity. Qed.
Lemma letter_dash o r : starts_with $"-" (letter_name o ++ r) = false. Proof. destruct o; reflexivity. Qed.

Lemma Forall_in {A} (P : A -> Prop) l x : Forall P l -> In x l -> P x.
Proof. rewrite Forall_forall. auto. Qed.

Lemma missed_undocumented long p rest : (long = false -> starts_with $"-" p = false) ->
  Forall (misses long p rest) branches -> ~ documented (dashes long ++ p).
Proof.
  intros HD M.
  assert (MF : forall o, p <> flag_name o).
  { intros o. assert (X : exists act, In (BFlag (flag_name o) act) branches) by (destruct o; eexists; cbn [branches In flag_name]; tauto).
    destruct X as [act X]. exact (Forall_in _ _ _ M X). }
  assert (MV : forall o, lookup long p (value_name o) rest = FNo).
  { intros o. assert (X : exists act, In (BArg (value_name o) act) branches) by (destruct o; eexists; cbn [branches In value_name]; tauto).
    destruct X as [act X]. exact (Forall_in _ _ _ M X). }
  assert (ML : forall o, lookup long p (letter_name o) rest = FNo).
  { intros o. assert (X : exists act, In (BArg (letter_name o) act) branches) by (destruct o; eexists; cbn [branches In letter_name]; tauto).
    destruct X as [act X]. exact (Forall_in _ _ _ M X). }
  assert (D : starts_with $"-" p = true -> long = true).
  { intros S. destruct long; [reflexivity|]. rewrite (HD eq_refl) in S. discriminate. }
  assert (split_dash : forall l q, starts_with $"-" q = false -> dashes long ++ p = dashes l ++ q -> p = q /\ long = l).
  { intros l q Q E. destruct (starts_with $"-" p) eqn:S.
    - rewrite (D eq_refl) in E. destruct l; cbn [dashes app lit list_ascii_of_string] in E.
      + split; [now injection E|auto].
      + injection E as E. subst q. discriminate Q.
    - destruct (dashes_inj long l p q S Q E). split; congruence. }
  intros [(l & o & E)|[(l & o & E)|[(l & o & v & E)|(o & v & E)]]].
  - pose proof (flag_dash o []) as Q. rewrite app_nil_r in Q.
    destruct (split_dash l _ Q E) as [-> _]. exact (MF o eq_refl).
  - pose proof (value_dash o []) as Q. rewrite app_nil_r in Q.
    destruct (split_dash l _ Q E) as [-> _]. specialize (MV o). unfold lookup in MV. rewrite value_long in MV. cbn [andb] in MV.
    pose proof (starts_with_app (value_name o) []) as S1. pose proof (skipn_here (value_name o) []) as S2.
    rewrite app_nil_r in S1, S2. rewrite S1, S2 in MV. destruct rest as [|[|? ?] ?]; discriminate MV.
  - destruct (split_dash l _ (value_dash o _) E) as [-> _]. specialize (MV o). unfold lookup in MV. rewrite value_long in MV. cbn [andb] in MV.
    rewrite starts_with_app in MV. rewrite skipn_here in MV. cbn [app lit list_ascii_of_string] in MV.
    replace (Ascii.eqb "=" "=") with true in MV by reflexivity. destruct v; discriminate MV.
  - destruct (split_dash false _ (letter_dash o _) E) as [-> ->]. specialize (ML o). unfold lookup in ML. rewrite letter_short in ML. cbn [andb] in ML.
    rewrite starts_with_app in ML. rewrite skipn_here in ML. destruct v; [|discriminate ML]. destruct rest as [|[|? ?] ?]; discriminate ML.
Qed.

(* ---------------------------------------------------------------- an argument list is read in one way only *)

(** the first argument of an option item: dashes, name, what follows the name *)
Inductive written := WFlag (o : flag_opt) | WValue (o : value_opt) (t : option str) | WLetter (o : letter_opt) (t : str).
Definition w_text (w : written) : str :=
  match w with
  | WFlag o => flag_name o
  | WValue o None => value_name o
  | WValue o (Some v) => value_name o ++ $"=" ++ v
  | WLetter o t => letter_name o ++ t
  end.

Lemma names_unique_fv o1 o2 t : flag_name o1 <> value_name o2 /\ flag_name o1 <> value_name o2 ++ $"=" ++ t.
Proof. destruct o1, o2; split; discriminate. Qed.
Lemma names_unique_fl o1 o2 t : flag_name o1 <> letter_name o2 ++ t.
Proof. destruct o1, o2; discriminate. Qed.
Lemma names_unique_vl o1 o2 r t : value_name o1 ++ r <> letter_name o2 ++ t.
Proof. destruct o1, o2; discriminate. Qed.
Lemma names_unique_f o1 o2 : flag_name o1 = flag_name o2 -> o1 = o2.
Proof. destruct o1, o2; (reflexivity || discriminate). Qed.
Lemma names_unique_v o1 o2 t1 t2 : (t1 = [] \/ exists v, t1 = $"=" ++ v) -> (t2 = [] \/ exists v, t2 = $"=" ++ v) ->
  value_name o1 ++ t1 = value_name o2 ++ t2 -> o1 = o2 /\ t1 = t2.
Proof.
  intros H1 H2 E. assert (o1 = o2).
  { destruct H1 as [->|[v1 ->]], H2 as [->|[v2 ->]]; destruct o1, o2; (reflexivity || discriminate E). }
  subst o2. split; [reflexivity|]. now apply app_inv_head in E.
Qed.
Lemma names_unique_l o1 o2 t1 t2 : letter_name o1 ++ t1 = letter_name o2 ++ t2 -> o1 = o2 /\ t1 = t2.
Proof. intros E. assert (o1 = o2) by (destruct o1, o2; (reflexivity || discriminate E)). subst o2. split; [reflexivity|]. now apply app_inv_head in E. Qed.

Lemma written_unique w1 w2 : w_text w1 = w_text w2 -> w1 = w2.
Proof.
  destruct w1 as [o1|o1 [t1|]|o1 t1], w2 as [o2|o2 [t2|]|o2 t2]; cbn [w_text]; intros E.
  - f_equal. now apply names_unique_f.
  - exfalso. exact (proj2 (names_unique_fv o1 o2 t2) E).
  - exfalso. exact (proj1 (names_unique_fv o1 o2 []) E).
  - exfalso. exact (names_unique_fl o1 o2 t2 E).
  - exfalso. exact (proj2 (names_unique_fv o2 o1 t1) (eq_sym E)).
  - destruct (names_unique_v o1 o2 ($"=" ++ t1) ($"=" ++ t2)) as [-> T]; [right; eexists; reflexivity|right; eexists; reflexivity|exact E|].
    apply app_inv_head in T. now subst.
  - destruct (names_unique_v o1 o2 ($"=" ++ t1) []) as [-> T]; [right; eexists; reflexivity|left; reflexivity|rewrite app_nil_r; exact E|discriminate T].
  - exfalso. exact (names_unique_vl o1 o2 _ t2 E).
  - exfalso. exact (proj1 (names_unique_fv o2 o1 []) (eq_sym E)).
  - destruct (names_unique_v o1 o2 [] ($"=" ++ t2)) as [-> T]; [left; reflexivity|right; eexists; reflexivity|rewrite app_nil_r; exact E|discriminate T].
  - destruct (names_unique_v o1 o2 [] []) as [-> _]; [left; reflexivity|left; reflexivity|rewrite !app_nil_r; exact E|reflexivity].
  - exfalso. apply (names_unique_vl o1 o2 [] t2). rewrite app_nil_r. exact E.
  - exfalso. exact (names_unique_fl o2 o1 t1 (eq_sym E)).
  - exfalso. exact (names_unique_vl o2 o1 _ t1 (eq_sym E)).
  - exfalso. apply (names_unique_vl o2 o1 [] t1). rewrite app_nil_r. exact (eq_sym E).
  - destruct (names_unique_l _ _ _ _ E). now subst.
Qed.
Lemma written_dash w : starts_with $"-" (w_text w) = false.
Proof.
  destruct w as [o|o [t|]|o t]; cbn [w_text].
  - pose proof (flag_dash o []) as Q. now rewrite app_nil_r in Q.
  - apply value_dash.
  - pose proof (value_dash o []) as Q. now rewrite app_nil_r in Q.
  - apply letter_dash.
Qed.

(** an option item by its first argument and what it takes from the next *)
Definition w_of (i : item) : bool * written * option str :=
  match i with
  | IFile _ => (false, WFlag OHelp, None)
  | IFlag l o => (l, WFlag o, None)
  | IValue l o true v => (l, WValue o (Some v), None)
  | IValue l o false v => (l, WValue o None, Some v)
  | ILetter o true v => (false, WLetter o v, None)
  | ILetter o false v => (false, WLetter o [], Some v)
  end.
Lemma spell_of i : is_file i = false -> let '(l, w, n) := w_of i in
  spell i = (dashes l ++ w_text w) :: match n with Some v => [v] | None => [] end.
Proof.
  destruct i as [f|l o|l o [|] v|o [|] v]; try discriminate; intros _; cbn [w_of spell w_text]; try reflexivity.
  rewrite app_nil_r. reflexivity.
Qed.
Lemma w_of_inj i j : is_file i = false -> is_file j = false -> item_ok i -> item_ok j ->
  fst (w_of i) = fst (w_of j) -> match snd (w_of i), snd (w_of j) with Some v, Some w => v = w | _, _ => True end -> i = j.
Proof.
  destruct i as [f|l o|l o [|] v|o [|] v], j as [f'|l' o'|l' o' [|] v'|o' [|] v']; try discriminate; intros _ _ I J E N;
    cbn [w_of fst snd item_ok] in *; injection E as ?; subst; try congruence.
Qed.

Lemma written_like l w : option_like (dashes l ++ w_text w) = true.
Proof.
  assert (N : exists c t, w_text w = c :: t /\ c <> "-"%char).
  { pose proof (written_dash w) as D. destruct (w_text w) as [|c t] eqn:E.
    - exfalso. destruct w as [o|o [x|]|o x]; cbn [w_text] in E; [destruct o|destruct o|destruct o|destruct o]; discriminate E.
    - exists c, t. split; [reflexivity|]. intros ->. discriminate D. }
  destruct N as (c & t & -> & N). destruct l.
  - reflexivity.
  - unfold option_like. cbn [dashes app lit list_ascii_of_string starts_with str_eqb].
    replace (Ascii.eqb "-" "-") with true by reflexivity.
    destruct (Ascii.eqb_spec c "-"); [congruence|]. reflexivity.
Qed.

Lemma spell_unique i j r r' : item_ok i -> item_ok j -> spell i ++ r = spell j ++ r' -> i = j /\ r = r'.
Proof.
  intros I J E.
  destruct (is_file i) eqn:FI; destruct (is_file j) eqn:FJ.
  - destruct i; try discriminate FI. destruct j; try discriminate FJ. cbn [spell app] in E. injection E as -> ->. split; reflexivity.
  - destruct i as [f| | |]; try discriminate FI. pose proof (spell_of j FJ) as S. destruct (w_of j) as [[l w] n]. rewrite S in E.
    cbn [spell app] in E. injection E as E _. cbn [item_ok] in I. rewrite E in I. rewrite written_like in I. discriminate.
  - destruct j as [f| | |]; try discriminate FJ. pose proof (spell_of i FI) as S. destruct (w_of i) as [[l w] n]. rewrite S in E.
    cbn [spell app] in E. injection E as E _. cbn [item_ok] in J. rewrite <- E in J. rewrite written_like in J. discriminate.
  - pose proof (spell_of i FI) as S. pose proof (spell_of j FJ) as S'. pose proof (w_of_inj i j FI FJ I J) as INJ.
    destruct (w_of i) as [[l w] n] eqn:WI, (w_of j) as [[l' w'] n'] eqn:WJ. cbn [fst snd] in INJ.
    rewrite S, S' in E. cbn [app] in E. injection E as E E'.
    destruct (dashes_inj _ _ _ _ (written_dash w) (written_dash w') E) as [-> Ew]. apply written_unique in Ew. subst w'.
    assert (i = j).
    { apply INJ; [reflexivity|]. destruct n, n'; try exact Logic.I. cbn [app] in E'. congruence. }
    subst j. rewrite WI in WJ. injection WJ as ->. split; [reflexivity|]. now apply app_inv_head in E'.
Qed.

Lemma spell_not_lacking i r : item_ok i -> ~ lacks_value (spell i ++ r).
Proof.
  intros I L.
  assert (H : exists l w n, spell i ++ r = (dashes l ++ w_text w) :: n /\
    ((exists o, w = WValue o None /\ (n = [] \/ exists n', n = [] :: n')) \/ (exists o, w = WValue o (Some [])) \/
     (exists o, w = WLetter o [] /\ (n = [] \/ exists n', n = [] :: n')))).
  { inversion L as [l o E|l o n E|l o n E|o E|o n E].
    - exists l, (WValue o None), []. split; [reflexivity|]. left. exists o. auto.
    - exists l, (WValue o None), ([] :: n). split; [reflexivity|]. left. exists o. split; [reflexivity|right; exists n; reflexivity].
    - exists l, (WValue o (Some [])), n. split; [cbn [w_text]; rewrite app_nil_r; reflexivity|]. right. left. exists o. reflexivity.
    - exists false, (WLetter o []), []. split; [cbn [w_text]; rewrite app_nil_r; reflexivity|]. right. right. exists o. auto.
    - exists false, (WLetter o []), ([] :: n). split; [cbn [w_text]; rewrite app_nil_r; reflexivity|]. right. right. exists o. split; [reflexivity|right; exists n; reflexivity]. }
  destruct H as (l & w & n & E & W).
  destruct (is_file i) eqn:FI.
  - destruct i as [f| | |]; try discriminate FI. cbn [spell app] in E. injection E as E _. cbn [item_ok] in I. rewrite E in I. rewrite written_like in I. discriminate.
  - pose proof (spell_of i FI) as S. destruct (w_of i) as [[l' w'] n'] eqn:WI. rewrite S in E. cbn [app] in E. injection E as E E'.
    destruct (dashes_inj _ _ _ _ (written_dash w') (written_dash w) E) as [-> Ew]. apply written_unique in Ew. subst w'.
    destruct i as [f|l1 o1|l1 o1 [|] v1|o1 [|] v1]; try discriminate FI; cbn [w_of] in WI; injection WI as ? ? ?; subst; cbn [item_ok] in I;
      destruct W as [(o & W & X)|[(o & W)|(o & W & X)]]; try discriminate W; try (injection W as ? ?; congruence);
      destruct X as [X|[x X]]; try discriminate X; injection X as ? ?; congruence.
Qed.

Lemma spell_documented i r : is_file i = false -> exists a r', spell i ++ r = a :: r' /\ documented a.
Proof.
  intros F. destruct i as [f|l o|l o [|] v|o [|] v]; try discriminate F; cbn [spell app]; eexists _, _; (split; [reflexivity|]).
  - left. eauto.
  - right. right. left. eauto.
  - right. left. eauto.
  - right. right. right. eauto.
  - right. right. right. exists o, []. rewrite app_nil_r. reflexivity.
Qed.

(** an option that lacks its value is written as its name, perhaps with [=]; its message is short *)
Lemma lookup_lack long p opt rest why : lookup long p opt rest = FLack why ->
  In opt (map value_name [ODump; OFormat; OInclude; OLibrary; OOut; OPrefix; OParam; OTemplate; OTemplatesPath] ++
             map letter_name [OLetterD; OLetterP; OLetterS]) ->
  (p = opt \/ p = opt ++ $"=") /\ (why = $"' requires an argument" \/ why = $"' has an empty argument") /\
  (why = $"' requires an argument" <-> p = opt /\ rest = []) /\
  length ($"option '" ++ shown long p ++ opt ++ why) <= 127.
Proof.
  intros L I.
  assert (LO : length opt <= 14).
  { cbn [map app In] in I. repeat (destruct I as [<-|I]; [cbn; lia|]). destruct I. }
  unfold lookup in L. destruct ((length opt =? 1) && long); [discriminate L|].
  destruct (starts_with opt p) eqn:S; [|discriminate L].
  apply starts_with_spec in S. destruct S as [q ->]. rewrite skipn_here in L.
  assert (W : (opt ++ q = opt \/ opt ++ q = opt ++ $"=") /\ (why = $"' requires an argument" \/ why = $"' has an empty argument") /\
    (why = $"' requires an argument" <-> opt ++ q = opt /\ rest = [])).
  { destruct q as [|c t].
    - rewrite app_nil_r. split; [left; reflexivity|]. destruct rest as [|[|v0 v] rest]; [| |discriminate L].
      + injection L as <-. split; [left; reflexivity|]. split; auto.
      + injection L as <-. split; [right; reflexivity|]. split; [discriminate|]. intros [_ H]. discriminate H.
    - destruct (length opt =? 1); [discriminate L|]. destruct (Ascii.eqb_spec c "=") as [->|]; [|discriminate L].
      destruct t; [|discriminate L]. injection L as <-. split; [right; reflexivity|]. split; [right; reflexivity|].
      split; [discriminate|]. intros [H _]. exfalso. apply (f_equal (@length _)) in H. rewrite app_length in H. cbn [length] in H. lia. }
  destruct W as (W1 & W2 & W3). split; [exact W1|]. split; [exact W2|]. split; [exact W3|].
  rewrite !app_length.
  assert (length (shown long (opt ++ q)) <= 2).
  { unfold shown. destruct long; [|cbn; lia]. rewrite app_length. pose proof (firstn_le_length 1 (opt ++ q)). pose proof (firstn_length 1 (opt ++ q)). cbn [length lit list_ascii_of_string]. lia. }
  assert (length why <= 23) by (destruct W2 as [-> | ->]; cbn; lia).
  change (length $"option '") with 8. lia.
Qed.
