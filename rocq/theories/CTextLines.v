(** Proofs for C85: reading the lines of a template, whatever the prefix and the symbols. *)
From Coq Require Import Ascii String List Bool Arith Lia NArith.
From Verif Require Import Str StrFacts NumFacts Parse ParamNames Prefix Substitute SpecPrefix SpecSubstitute SpecTemplates SpecGenerate SpecEndToEnd SpecCText CTextProps CTextAbs SubstFacts2 SubstProps TemplateFacts ShippedFacts ShippedProps TablesClean EndToEnd.
Import ListNotations.

Section Lines.
Variables (cxx : bool) (u lo : str).
Hypotheses (U : ident_text u) (L : ident_text lo) (U0 : u <> []) (L0 : lo <> []).

(* ------------------------------------------------------------ words *)

(** what is kept of a word that is renamed *)
Definition kept (w : str) : option str :=
  match after $"GDO_" w, after $"_GDO_" w, after $"gdo_" w, after $"_gdo_" w with
  | Some r, _, _, _ | _, Some r, _, _ | _, _, Some r, _ | _, _, _, Some r => Some r
  | _, _, _, _ => if str_eqb w $"gdo" then Some [] else None
  end.
Definition by_word (w : str) : state -> option (list state) :=
  match kept w with None => by_text cxx w | Some r => by_suffix r end.

Lemma skipn_ident n w : ident_text w -> ident_text (skipn n w).
Proof. revert w. induction n as [|n IH]; intros w H; [exact H|]. destruct H; [constructor|]. now apply IH. Qed.
Lemma after_ident p w r : ident_text w -> after p w = Some r -> ident_text r.
Proof. unfold after. destruct (starts_with p w); [|discriminate]. intros H [= <-]. now apply skipn_ident. Qed.
Lemma under_ident : ident_text $"_".
Proof. repeat constructor. Qed.
Lemma app_some (a b : str) : a <> [] -> a ++ b <> [].
Proof. destruct a; [easy|discriminate]. Qed.
Lemma word_good w : ident_text w -> good cxx (by_word w) (renamed_word u lo w).
Proof.
  intros H. unfold by_word, kept, renamed_word.
  destruct (after $"GDO_" w) as [r|] eqn:E1.
  { rewrite app_assoc. apply suffix_good; [|now apply app_some, app_some]. apply Forall_app. split; [apply Forall_app; split; [exact U|exact under_ident]|exact (after_ident _ _ _ H E1)]. }
  destruct (after $"_GDO_" w) as [r|] eqn:E2.
  { rewrite (app_assoc u), (app_assoc $"_"). apply suffix_good; [|discriminate]. apply Forall_app. split; [|exact (after_ident _ _ _ H E2)].
    apply Forall_app; split; [exact under_ident|]. apply Forall_app; split; [exact U|exact under_ident]. }
  destruct (after $"gdo_" w) as [r|] eqn:E3.
  { rewrite app_assoc. apply suffix_good; [|now apply app_some, app_some]. apply Forall_app. split; [apply Forall_app; split; [exact L|exact under_ident]|exact (after_ident _ _ _ H E3)]. }
  destruct (after $"_gdo_" w) as [r|] eqn:E4.
  { rewrite (app_assoc lo), (app_assoc $"_"). apply suffix_good; [|discriminate]. apply Forall_app. split; [|exact (after_ident _ _ _ H E4)].
    apply Forall_app; split; [exact under_ident|]. apply Forall_app; split; [exact L|exact under_ident]. }
  destruct (str_eqb w $"gdo").
  { rewrite <- (app_nil_r lo). apply suffix_good; rewrite app_nil_r; assumption. }
  apply by_text_good.
Qed.
Lemma word_some w : ident_text w -> w <> [] -> renamed_word u lo w <> [] /\ ident_text (renamed_word u lo w).
Proof.
  intros H N. unfold renamed_word.
  destruct (after $"GDO_" w) as [r|] eqn:E1; [split; [now apply app_some|apply Forall_app; split; [exact U|apply Forall_app; split; [exact under_ident|exact (after_ident _ _ _ H E1)]]]|].
  destruct (after $"_GDO_" w) as [r|] eqn:E2; [split; [discriminate|apply Forall_app; split; [exact under_ident|]; apply Forall_app; split; [exact U|apply Forall_app; split; [exact under_ident|exact (after_ident _ _ _ H E2)]]]|].
  destruct (after $"gdo_" w) as [r|] eqn:E3; [split; [now apply app_some|apply Forall_app; split; [exact L|apply Forall_app; split; [exact under_ident|exact (after_ident _ _ _ H E3)]]]|].
  destruct (after $"_gdo_" w) as [r|] eqn:E4; [split; [discriminate|apply Forall_app; split; [exact under_ident|]; apply Forall_app; split; [exact L|apply Forall_app; split; [exact under_ident|exact (after_ident _ _ _ H E4)]]]|].
  destruct (str_eqb w $"gdo"); split; assumption.
Qed.

(** one after the other *)
Definition andthen (x : option (list state)) (f : list state -> option (list state)) : option (list state) := match x with Some l => f l | None => None end.
Fixpoint by_rest (r : list (ascii * str)) (l : list state) : option (list state) :=
  match r with
  | [] => Some l
  | (c, w) :: r' => andthen (each (by_text cxx [c]) l) (fun l1 => andthen (each (by_word w) l1) (by_rest r'))
  end.
Definition by_lit (s : str) (l : list state) : option (list state) :=
  let '(w, r) := words s in andthen (each (by_word w) l) (by_rest r).
Definition reads (l : list state) (t : str) (l' : list state) : Prop := forall b, covers l b -> exists b', read_text cxx b t = Some b' /\ covers l' b'.
Lemma reads_app l t l1 t1 l2 : reads l t l1 -> reads l1 t1 l2 -> reads l (t ++ t1) l2.
Proof.
  intros A B b C. destruct (A b C) as (b1 & R1 & C1). destruct (B b1 C1) as (b2 & R2 & C2). exists b2. split; [|exact C2]. now rewrite read_app, R1.
Qed.
Lemma reads_nil l : reads l [] l.
Proof. intros b C. now exists b. Qed.
Lemma each_reads f t l l' : good cxx f t -> each f l = Some l' -> reads l t l'.
Proof. intros G E b C. exact (each_good cxx f t l l' b G E C). Qed.

Lemma words_ok s : cut_ok (words s).
Proof.
  induction s as [|c s IH]; [split; constructor|]. cbn [words]. destruct (words s) as [w r]. destruct IH as (W & R). cbn [fst snd] in W, R.
  destruct (is_ident c) eqn:C; split; cbn [fst snd]; [now constructor|exact R|constructor|]. constructor; [now split|exact R].
Qed.
Lemma rest_reads r l l' : Forall (fun p : ascii * str => is_ident (fst p) = false /\ ident_text (snd p)) r -> by_rest r l = Some l' ->
  reads l (concat (map (fun p => fst p :: snd p) (map (fun p => (fst p, renamed_word u lo (snd p))) r))) l'.
Proof.
  intros H. revert l. induction H as [|[c w] r (_ & W) _ IH]; intros l; cbn [by_rest map concat fst snd]; [intros [= <-]; apply reads_nil|].
  destruct (each (by_text cxx [c]) l) as [l1|] eqn:E1; [|discriminate]. cbn [andthen]. destruct (each (by_word w) l1) as [l2|] eqn:E2; [|discriminate]. cbn [andthen]. intros E3.
  change (c :: renamed_word u lo w) with ([c] ++ renamed_word u lo w). rewrite <- app_assoc.
  eapply reads_app; [exact (each_reads _ _ _ _ (by_text_good cxx [c]) E1)|]. eapply reads_app; [exact (each_reads _ _ _ _ (word_good w W) E2)|]. now apply IH.
Qed.
Lemma lit_reads s l l' : by_lit s l = Some l' -> reads l (rename u lo s) l'.
Proof.
  unfold by_lit, rename. pose proof (words_ok s) as (W & R). destruct (words s) as [w r]. cbn [fst snd] in W, R.
  destruct (each (by_word w) l) as [l1|] eqn:E; [|discriminate]. cbn [andthen]. intros E2. unfold cut_text, map_words. cbn [fst snd].
  eapply reads_app; [exact (each_reads _ _ _ _ (word_good w W) E)|]. now apply rest_reads.
Qed.

(* ------------------------------------------------------------ a line *)

Lemma rename_blank s : rename u lo (sp :: s) = sp :: rename u lo s.
Proof. unfold rename. cbn [words]. destruct (words s) as [w r]. reflexivity. Qed.
Lemma rename_head c s : exists d r, rename u lo (c :: s) = d :: r /\ (d = sp -> c = sp).
Proof.
  unfold rename. cbn [words]. pose proof (words_ok s) as (W & _). destruct (words s) as [w r]. cbn [fst] in W. destruct (is_ident c) eqn:C.
  - destruct (word_some (c :: w)) as (N & I); [now constructor|discriminate|]. unfold cut_text, map_words. cbn [fst snd].
    destruct (renamed_word u lo (c :: w)) as [|d x]; [now destruct N|]. exists d. eexists. split; [reflexivity|]. intros ->. inversion I. discriminate.
  - exists c. eexists. split; [reflexivity|]. auto.
Qed.

Definition by_hole (h : hole) : state -> option (list state) := match h with HFunc | HObj | HSym => by_name | _ => by_decl end.
Definition may_eat (h : hole) : bool := match h with HReturn | HType | HObjType => true | _ => false end.
Fixpoint by_parts (eating : bool) (p : list part) (l : list state) : option (list state) :=
  match p with
  | [] => Some l
  | Lit [] :: r => by_parts eating r l
  | Lit (c :: s) :: r =>
      andthen (if eating && Ascii.eqb c sp then andthen (each (by_text cxx [sp]) l) (fun l1 => by_lit s (tidy (l ++ l1))) else by_lit (c :: s) l) (by_parts false r)
  | Hole h :: r => andthen (each (by_hole h) l) (by_parts (may_eat h) r)
  end.
Lemma covers_left l l1 b : covers l b -> covers (tidy (l ++ l1)) b.
Proof. intros (a & I & S). exists a. split; [apply tidy_in, in_or_app; now left|exact S]. Qed.
Lemma covers_right l l1 b : covers l1 b -> covers (tidy (l ++ l1)) b.
Proof. intros (a & I & S). exists a. split; [apply tidy_in, in_or_app; now right|exact S]. Qed.
Lemma parts_reads v eats eating may p l l' : (forall h, In (Hole h) p -> good cxx (by_hole h) (v h)) -> (forall h, eats h = true -> may_eat h = true) -> (eating = true -> may = true) ->
  by_parts may p l = Some l' -> reads l (fill v eats eating (map (rename_part u lo) p)) l'.
Proof.
  intros V EAT. revert eating may l. induction p as [|[s|h] p IH]; intros eating may l EM.
  - intros [= <-]. apply reads_nil.
  - specialize (IH (fun h I => V h (or_intror I))). destruct s as [|c s]; cbn [by_parts map rename_part].
    { change (rename u lo []) with (@nil ascii). cbn [fill]. now apply IH. }
    destruct (rename_head c s) as (d & x & E & D). rewrite E. cbn [fill]. destruct (may && Ascii.eqb c sp) eqn:MS.
    + apply andb_true_iff in MS as (-> & MS). apply Ascii.eqb_eq in MS as ->. rewrite rename_blank in E. injection E as <- <-.
      destruct (each (by_text cxx [sp]) l) as [l1|] eqn:E1; [|discriminate]. cbn [andthen].
      destruct (by_lit s (tidy (l ++ l1))) as [l2|] eqn:E2; [|discriminate]. cbn [andthen]. intros E3.
      eapply reads_app; [|now apply (IH false false l2); [|exact E3]].
      destruct (eating && Ascii.eqb sp sp).
      * intros b C. exact (lit_reads _ _ _ E2 b (covers_left _ _ _ C)).
      * change (sp :: rename u lo s) with ([sp] ++ rename u lo s). intros b C. destruct (each_reads _ _ _ _ (by_text_good cxx [sp]) E1 b C) as (b1 & R1 & C1).
        destruct (lit_reads _ _ _ E2 b1 (covers_right l l1 b1 C1)) as (b2 & R2 & C2). exists b2. split; [|exact C2]. now rewrite read_app, R1.
    + assert (eating && Ascii.eqb d sp = false) as ->.
      { destruct eating; [|reflexivity]. rewrite (EM eq_refl) in MS. cbn [andb] in *. apply Ascii.eqb_neq. apply Ascii.eqb_neq in MS. auto. }
      destruct (by_lit (c :: s) l) as [l2|] eqn:E2; [|discriminate]. cbn [andthen]. intros E3.
      eapply reads_app; [|now apply (IH false false l2); [|exact E3]]. rewrite <- E. exact (lit_reads _ _ _ E2).
  - cbn [by_parts map rename_part fill]. destruct (each (by_hole h) l) as [l1|] eqn:E1; [|discriminate]. cbn [andthen]. intros E2.
    eapply reads_app; [exact (each_reads _ _ _ _ (V h (or_introl eq_refl)) E1)|]. apply (IH (fun h I => V h (or_intror I)) (eats h) (may_eat h) l1); [apply EAT|exact E2].
Qed.

(** the values of placeholders *)
Lemma brackets_app a b o : brackets (a ++ b) o = match brackets a o with Some o' => brackets b o' | None => None end.
Proof. revert o. induction a as [|c a IH]; intros o; [reflexivity|]. cbn [app brackets]. destruct (bracket c o); [apply IH|reflexivity]. Qed.
Lemma matched_app a b : matched a -> matched b -> matched (a ++ b).
Proof. unfold matched. intros A B. now rewrite brackets_app, A. Qed.
Lemma matched_ident s : ident_text s -> matched s.
Proof. induction 1 as [|c s C _ IH]; [reflexivity|]. unfold matched. cbn [brackets]. now rewrite (ident_bracket c [] C). Qed.
Lemma matched_blanks n : matched (blanks n).
Proof. induction n as [|n IH]; [reflexivity|exact IH]. Qed.
Lemma decl_ident s : ident_text s -> declaration_text s.
Proof. apply Forall_impl. intros c C. unfold declaration_char. now rewrite C. Qed.
Lemma decl_blanks n : declaration_text (blanks n).
Proof. induction n as [|n IH]; constructor; [reflexivity|exact IH]. Qed.
Lemma decl_app a b : declaration_text a -> declaration_text b -> declaration_text (a ++ b).
Proof. intros A B. apply Forall_app. now split. Qed.

Lemma value_good n e h : plain_proto e -> matched_proto e -> good cxx (by_hole h) (value_of n e h).
Proof.
  intros (PT & PA & PN & PS & S0) (MT & MA & MN). destruct h; cbn [by_hole value_of]; try (apply name_good; assumption); apply decl_good;
    try assumption; try (now constructor); try (apply decl_app; [now apply decl_ident|apply decl_blanks]); try (apply matched_app; [now apply matched_ident|apply matched_blanks]).
  - destruct (void_type e); repeat constructor.
  - destruct (void_type e); reflexivity.
Qed.
Lemma pointer_good isf e : plain_proto e -> matched_proto e -> good cxx by_decl (pointer_to isf e).
Proof.
  intros (PT & PA & PN & PS & S0) (MT & MA & MN). unfold pointer_to.
  apply decl_good; [apply decl_app; [exact PT|]; apply decl_app; [destruct (pointer_type e); repeat constructor|]; destruct isf; [|repeat constructor];
    apply decl_app; [repeat constructor|]; apply decl_app; [exact PA|repeat constructor]|].
  apply matched_app; [exact MT|]. apply matched_app; [destruct (pointer_type e); reflexivity|]. destruct isf; [|reflexivity].
  unfold matched. rewrite brackets_app. change (brackets $"(*)(" []) with (Some $"("). cbv beta iota. rewrite brackets_app, <- (brackets_if_true (p_args e)), (matched_any true _ _ MA). reflexivity.
Qed.
Lemma symbol_good isf e h : plain_proto e -> matched_proto e -> good cxx (by_hole h) (symbol_value isf e h).
Proof. intros P M. destruct h; try (apply value_good; assumption). now apply pointer_good. Qed.
Lemma entry_reads n e p l l' : plain_proto e -> matched_proto e -> by_parts false p l = Some l' -> reads l (fill_entry n (map (rename_part u lo) p) e) l'.
Proof.
  intros P M E. unfold fill_entry. apply (parts_reads _ _ false false p l l'); [intros h _; now apply value_good| |auto|exact E].
  intros h. destruct h; cbn; auto; discriminate.
Qed.
Lemma symbol_reads isf e p l l' : plain_proto e -> matched_proto e -> by_parts false p l = Some l' -> reads l (fill_symbol_of isf (map (rename_part u lo) p) e) l'.
Proof.
  intros P M E. unfold fill_symbol_of. apply (parts_reads _ _ false false p l l'); [intros h _; now apply symbol_good|discriminate|auto|exact E].
Qed.

(* ------------------------------------------------------------ lines *)

(** states in which a line directive changes nothing *)
Definition between (a : state) : bool :=
  match t_place a, t_lead a with
  | _, Asking _ _ => false
  | Text, Start => true
  | BlockComment, _ => true
  | _, _ => false
  end.
Definition subset (a b : list state) : bool := forallb (fun x => existsb (fun y => if state_dec x y then true else false) b) a.
Definition by_line (data : str) (l : list state) : option (list state) :=
  match holes (parts 0 data) with
  | [] => andthen (by_lit data l) (each (by_text cxx [nl]))
  | _ => andthen (andthen (by_parts false (parts 0 data) l) (each (by_text cxx [nl]))) (fun r => if subset r l then Some l else None)
  end.
(** the items of a template; line directives can be at markers and at lines with placeholders *)
Fixpoint by_items (m : param_mode) (shown : bool) (items : list item) (l : list state) : option (list state) :=
  match items with
  | [] => Some l
  | Line e :: r =>
      if shown then
        if match holes (parts 0 (e_data e)) with [] => true | _ => forallb between l end
        then andthen (by_line (e_data e) l) (by_items m shown r) else None
      else by_items m shown r l
  | Mark k :: r => if forallb between l then by_items m (opens k m) r l else None
  end.
(** lines without placeholders *)
Fixpoint by_plain (ls : list str) (l : list state) : option (list state) :=
  match ls with
  | [] => Some l
  | d :: r => andthen (andthen (by_lit d l) (each (by_text cxx [nl]))) (by_plain r)
  end.

Lemma subset_covers a b s : subset a b = true -> covers a s -> covers b s.
Proof.
  intros H (x & I & S). unfold subset in H. rewrite forallb_forall in H. specialize (H x I). apply existsb_exists in H as (y & Y & E).
  destruct (state_dec x y) as [<- |]; [|discriminate]. now exists x.
Qed.
Definition digit_text (t : str) : Prop := Forall (fun c => isdigit c = true) t.
Lemma number_ident n : ident_text (nat_to_string n).
Proof. destruct (to_string_value (N.of_nat n)) as (_ & _ & F). revert F. apply Forall_impl. intros c C. unfold is_ident, isalnum. rewrite C. now rewrite orb_true_r. Qed.
Lemma number_some n : nat_to_string n <> [].
Proof. destruct (to_string_value (N.of_nat n)) as (_ & N & _). exact N. Qed.
Lemma line_directive_reads n a : between a = true -> read_text cxx a ($"#line " ++ nat_to_string n ++ [nl]) = Some a.
Proof.
  destruct a as [p l cs o]. unfold between. cbn [t_place t_lead]. intros B. rewrite read_app.
  assert (p = Text /\ l = Start \/ p = BlockComment) as [(-> & ->)| ->] by (destruct p, l; try discriminate; auto).
  - change (read_text cxx (mkstate Text Start cs o) $"#line ") with (Some (mkstate Text (Directive o) cs o)). cbv beta iota. rewrite read_app.
    rewrite (name_in_code cxx _ (Directive o) (Directive o)); [|apply number_ident|apply number_some|reflexivity].
    cbn. unfold end_line. cbn. now rewrite (proj2 (str_eqb_eq o o) eq_refl).
  - rewrite <- read_app. apply stays_block. apply Forall_app. split; [repeat constructor; intros; try discriminate|]. apply Forall_app. split.
    + generalize (number_ident n). apply Forall_impl. intros c C. destruct (ident_plain c C). tauto.
    + repeat constructor; discriminate.
Qed.
Lemma between_covers l b n : forallb between l = true -> covers l b -> read_text cxx b ($"#line " ++ nat_to_string n ++ [nl]) = Some b.
Proof.
  intros H (a & I & S). rewrite forallb_forall in H. specialize (H a I).
  destruct (sim_cases a b S) as [<- |(p & m & v & w & cs & o & -> & _)]; [now apply line_directive_reads|]. unfold between in H. cbn in H. destruct p; discriminate.
Qed.

Lemma line_reads l n : forallb between l = true -> reads l (write_text (WLine n)) l.
Proof. intros B b C. exists b. split; [|exact C]. exact (between_covers l b n B C). Qed.
Lemma output_cons w ws : output (w :: ws) = write_text w ++ output ws.
Proof. reflexivity. Qed.
Lemma output_app a b : output (a ++ b) = output a ++ output b.
Proof. unfold output. now rewrite map_app, concat_app. Qed.
Lemma only_lines_reads l ws : forallb between l = true -> SpecSubstitute.texts ws = [] -> reads l (output ws) l.
Proof.
  intros B. induction ws as [|w ws IH]; intros T; [apply reads_nil|]. rewrite output_cons. destruct w as [n|s]; [|discriminate].
  eapply reads_app; [now apply line_reads|]. now apply IH.
Qed.

Variable c : config.
Hypotheses (CU : m_pfx_upper (c_pfx c) = u) (CL : m_pfx_lower (c_pfx c) = lo).
Hypotheses (PF : Forall plain_proto (c_funcs c)) (PO : Forall plain_proto (c_objs c)) (MF : Forall matched_proto (c_funcs c)) (MO : Forall matched_proto (c_objs c)).

Lemma nl_reads l l' : each (by_text cxx [nl]) l = Some l' -> reads l [nl] l'.
Proof. apply each_reads, by_text_good. Qed.
Hypothesis PX : usable_prefix (c_pfx c).
Lemma copy_reads l l1 l2 x n : forallb between l = true -> reads l x l1 -> each (by_text cxx [nl]) l1 = Some l2 -> subset l2 l = true -> reads l (output (print_copy c n x)) l.
Proof.
  intros B X E S. unfold print_copy. rewrite output_app. eapply reads_app.
  - instantiate (1 := l). destruct (c_line c); [|apply reads_nil]. rewrite output_cons. eapply reads_app; [apply line_reads; exact B|apply reads_nil].
  - rewrite output_cons. cbn [write_text]. change (output []) with (@nil ascii). rewrite app_nil_r. intros b C.
    destruct (reads_app _ _ _ _ _ X (nl_reads _ _ E) b C) as (b' & R & C'). exists b'. split; [exact R|]. exact (subset_covers _ _ _ S C').
Qed.
Lemma all_reads l ts n : Forall (fun x => reads l (output (print_copy c n x)) l) ts -> reads l (output (flat_map (print_copy c n) ts)) l.
Proof. induction 1 as [|x ts X _ IH]; [apply reads_nil|]. cbn [flat_map]. rewrite output_app. eapply reads_app; [exact X|exact IH]. Qed.

Lemma entry_line_reads n e l l' ws k : check_entry e = true -> match holes (parts 0 (e_data e)) with [] => true | _ => forallb between l end = true ->
  by_line (e_data e) l = Some l' -> substitute_line c n false e = Ok (ws, k, false) -> reads l (output ws) l'.
Proof.
  intros K B E R.
  assert (CF : Forall clean_proto (c_funcs c)) by exact (plain_clean_all _ PF). assert (CO : Forall clean_proto (c_objs c)) by exact (plain_clean_all _ PO).
  pose proof (checked_expands c e PX K) as X. unfold by_line in E. unfold expansion in X. rewrite CU, CL in X. destruct (holes (parts 0 (e_data e))) as [|h hs] eqn:HS.
  - assert (ws = [WText (rename u lo (e_data e) ++ [nl])]) as ->.
    { destruct (usable _ PX) as (_ & _ & _ & _ & RR). unfold check_entry in K. rewrite HS in K. apply andb_true_iff in K as (K & K3). apply andb_true_iff in K as (K1 & K2).
      assert (A : ~ adjacent_gdo (cut_words (words (e_data e)))) by (intros A; apply adjacent_spec in A; rewrite A in K2; discriminate K2).
      specialize (RR _ A). rewrite CU, CL in RR.
      assert (D : line_data c e = rename u lo (e_data e)) by (unfold line_data; rewrite CU; exact RR).
      rewrite (plain_line c n e) in R; [rewrite D in R; now injection R|now apply not_marker_spec|].
      intros h O. apply hole_occurs_twice in O. rewrite D, rename_twice in O by assumption. rewrite O in K3. discriminate K3. }
    destruct (by_lit (e_data e) l) as [l1|] eqn:E1; [|discriminate]. cbn [andthen] in E. rewrite output_cons. cbn [write_text]. change (output []) with (@nil ascii). rewrite app_nil_r.
    eapply reads_app; [exact (lit_reads _ _ _ E1)|exact (nl_reads _ _ E)].
  - destruct (by_parts false (parts 0 (e_data e)) l) as [l1|] eqn:E1; [|discriminate]. cbn [andthen] in E. destruct (each (by_text cxx [nl]) l1) as [l2|] eqn:E2; [|discriminate]. cbn [andthen] in E.
    destruct (subset l2 l) eqn:SS; [|discriminate]. injection E as <-.
    assert (G : Forall (fun x => reads l x l1) (copies c (longest (class_names c (hole_class h))) (hole_class h) (map (rename_part u lo) (parts 0 (e_data e))))).
    { unfold copies. destruct (hole_class h); try (apply Forall_app; split); apply Forall_map; rewrite Forall_forall in *; intros y I; try (apply entry_reads; auto); apply symbol_reads; auto. }
    destruct (line_expands c n e _ CF CO X) as (ws' & k' & R' & T & Cs). rewrite R in R'. injection R' as <- <-.
    destruct Cs as [(Q & W & _)|[(Q & W & _)|Q]].
    + rewrite Q in G. inversion G as [|? ? G1 _]; subst. rewrite output_cons. cbn [write_text]. change (output []) with (@nil ascii). rewrite app_nil_r.
      intros b C. destruct (reads_app _ _ _ _ _ G1 (nl_reads _ _ E2) b C) as (b' & R' & C'). exists b'. split; [exact R'|]. exact (subset_covers _ _ _ SS C').
    + rewrite W. apply all_reads. revert G. apply Forall_impl. intros x Hx. exact (copy_reads l l1 l2 x n B Hx E2 SS).
    + rewrite Q in T. now apply only_lines_reads.
Qed.

Lemma items_reads items : Forall (fun i => match i with Line e => check_entry e = true | Mark _ => True end) items -> line_items_ok items -> forall n shown l l' ws k skip,
  by_items (c_param c) shown items l = Some l' -> substitute_entries c n (negb shown) (map item_entry items ++ [terminator]) = Ok (ws, k, skip) -> reads l (output ws) l'.
Proof.
  intros F. induction F as [|i items I F IH]; intros OK n shown l l' ws k skip E R.
  - cbn in R. injection R as <- _ _. injection E as <-. apply reads_nil.
  - destruct i as [e|m]; cbn [by_items] in E; cbn [map app item_entry substitute_entries] in R.
    + apply items_line in OK as (Hm & Hz & OK). apply Nat.eqb_neq in Hz. rewrite Hz in R. destruct shown.
      * destruct (match holes (parts 0 (e_data e)) with [] => true | _ => forallb between l end) eqn:B; [|discriminate].
        destruct (by_line (e_data e) l) as [l1|] eqn:E1; [|discriminate]. cbn [andthen] in E. cbn [negb] in R.
        destruct (substitute_line c n false e) as [[[w n1] sk]| | |] eqn:S; try discriminate. cbn [bind] in R.
        assert (sk = false) as -> by exact (line_skip c n false e w n1 sk Hm S).
        destruct (substitute_entries c (n + e_count e) false (map item_entry items ++ [terminator])) as [[[w' n2] sk2]| | |] eqn:S2; try discriminate. cbn [bind] in R.
        injection R as <- _ _. rewrite output_app. eapply reads_app; [exact (entry_line_reads n e l l1 w n1 I B E1 S)|]. exact (IH OK _ true _ _ _ _ _ E S2).
      * cbn [negb] in R. rewrite (hidden_line c n e Hm) in R. cbn [bind] in R.
        destruct (substitute_entries c (n + e_count e) true (map item_entry items ++ [terminator])) as [[[w' n2] sk2]| | |] eqn:S2; try discriminate. cbn [bind] in R.
        injection R as <- _ _. exact (IH OK _ false _ _ _ _ _ E S2).
    + apply items_mark in OK. cbn [e_count Nat.eqb] in R. fold (item_entry (Mark m)) in R. rewrite mark_line in R.
      destruct (forallb between l) eqn:B; [|discriminate].
      destruct (substitute_entries c (n + 1) (negb (opens m (c_param c))) (map item_entry items ++ [terminator])) as [[[w' n2] sk2]| | |] eqn:S2;
        destruct (opens m (c_param c) && c_line c); cbn [bind] in R; rewrite S2 in R; cbn [bind] in R; try discriminate; injection R as <- _ _.
      * cbn [app]. rewrite output_cons. eapply reads_app; [now apply line_reads|]. exact (IH OK _ _ _ _ _ _ _ E S2).
      * exact (IH OK _ _ _ _ _ _ _ E S2).
Qed.
(** a template after which everything is closed again *)
Definition is_fresh (r : option (list state)) : bool := match r with Some [s] => if state_dec s fresh then true else false | _ => false end.
Definition closes (m : param_mode) (items : list item) : bool := is_fresh (by_items m true items [fresh]).
Lemma fresh_closed r t : is_fresh r = true -> (forall l, r = Some l -> reads [fresh] t l) -> closed cxx t.
Proof.
  intros F H. unfold is_fresh in F. destruct r as [[|s [|]]|]; try discriminate. destruct (state_dec s fresh) as [-> |]; [|discriminate].
  destruct (H [fresh] eq_refl fresh) as (b & R & (a & [<- |[]] & S)); [exists fresh; split; [now left|apply sim_refl]|].
  unfold closed. rewrite R. f_equal. symmetry. exact (sim_lead_eq _ _ Start S eq_refl ltac:(discriminate)).
Qed.
Lemma closes_reads items n ws k skip : Forall (fun i => match i with Line e => check_entry e = true | Mark _ => True end) items -> line_items_ok items ->
  closes (c_param c) items = true -> substitute_entries c n false (map item_entry items ++ [terminator]) = Ok (ws, k, skip) -> closed cxx (output ws).
Proof. intros F OK C R. apply (fresh_closed _ _ C). intros l E. exact (items_reads items F OK n true _ _ _ _ _ E R). Qed.

Lemma plain_reads ls l l' : by_plain ls l = Some l' -> reads l (concat (map (fun s => rename u lo s ++ [nl]) ls)) l'.
Proof.
  revert l. induction ls as [|d ls IH]; intros l; cbn [by_plain map concat]; [intros [= <-]; apply reads_nil|].
  destruct (by_lit d l) as [l1|] eqn:E1; [|discriminate]. cbn [andthen]. destruct (each (by_text cxx [nl]) l1) as [l2|] eqn:E2; [|discriminate]. cbn [andthen]. intros E3.
  eapply reads_app; [eapply reads_app; [exact (lit_reads _ _ _ E1)|exact (nl_reads _ _ E2)]|now apply IH].
Qed.
End Lines.
