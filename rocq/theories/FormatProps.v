(** Proofs of the formatting, typedef and replacement properties. *)
From Coq Require Import Ascii String List Bool Arith Lia.
From Verif Require Import Str StrFacts Parse ParamNames SpecParse SpecTables SelectFacts ParamFacts2 Format SpecFormat FormatFacts TypedefFacts.
Import ListNotations.

Lemma format_cosmetic s : exists t, format_prototype s = Ok t /\ unblank s t /\ tidy t.
Proof. destruct (format_spec s) as (t & H1 & H2 & _ & H3). eauto. Qed.
Lemma format_tokens s t : format_prototype s = Ok t -> tokens t = tokens s.
Proof. destruct (format_spec s) as (u & H1 & _ & H2 & _). intro E. congruence. Qed.
Lemma format_spaced ts t : Forall lexeme ts -> format_prototype (spaced ts) = Ok t -> tokens t = flat_map split_dots ts.
Proof. intros H E. rewrite (format_tokens _ _ E). now apply tokens_spaced. Qed.

Lemma selected_in pfx syms ps p : In p (selected pfx syms ps) -> In p ps.
Proof.
  unfold selected. destruct pfx, syms; auto; intro H; apply in_app_or in H as [H|H]; now apply filter_In in H.
Qed.

(** declarations of a table *)
Lemma decls_of m ds ps (l : list proto) : Forall2 (recorded m) ds ps -> Forall decl_ok ds -> (forall p, In p l -> In p ps) ->
  exists es, Forall2 describes es l /\ Forall decl_ok es /\ incl es ds.
Proof.
  intros H Hok. induction l as [|p l IH]; intro Hi.
  - exists []. split; [constructor|]. split; [constructor|]. now intros x [].
  - destruct IH as (es & H1 & H2 & H3); [intros q Hq; apply Hi; now right|].
    assert (E : exists d, In d ds /\ describes d p).
    { specialize (Hi p (or_introl eq_refl)). clear - H Hi. induction H as [|d q ds ps Hd H IH]; [easy|].
      destruct Hi as [->|Hi]; [exists d; split; [now left|]; destruct Hd as (A & B & C & _); now split|].
      destruct (IH Hi) as (e & He & Hq). exists e. split; [now right|easy]. }
    destruct E as (d & Hd & Hp). exists (d :: es). split; [now constructor|]. split.
    + constructor; [|easy]. rewrite Forall_forall in Hok. now apply Hok.
    + intros x [<-|Hx]; auto.
Qed.

Lemma typedefs_of_input m pfx syms name vec t pl : Forall (Forall lexeme) vec -> gdo_parse m pfx syms name vec = Ok t ->
  exists ds s, Forall2 describes ds (t_objs t) /\ Forall (fun d => decl_ok d /\ In (written d) vec) ds /\
    finish_tables pl t = Ok s /\
    Forall2 formatted_proto (t_funcs t) (s_funcs s) /\
    Forall2 formatted_proto (map (with_typedef pl) (t_objs t)) (s_objs s) /\
    Forall2 formatted (flat_map (fun d => typedef_text d (td_name pl (decl_name d))) ds) (s_typedefs s).
Proof.
  intros Hl E. pose proof (gdo_parse_spec m pfx syms name vec Hl) as S. rewrite E in S.
  destruct S as (ds & ps & _ & Hok & Hw & _ & Hr & _ & _ & ->).
  destruct (decls_of m ds ps (t_objs (tables_of (selected pfx syms ps))) Hr Hok) as (es & H1 & H2 & H3).
  { intros p Hp. cbn [tables_of t_objs] in Hp. apply filter_In in Hp as [Hp _]. eapply selected_in; eauto. }
  destruct (finish_spec pl _ es H1 H2) as (s & Es & F1 & F2 & F3). exists es, s. repeat split; auto.
  apply Forall_forall. intros d Hd. split; [rewrite Forall_forall in H2; auto|]. subst vec. apply in_map. auto.
Qed.

(** every typedef, read back, is the declaration of the typedef name *)
Lemma typedef_reads_back pl d t t' : decl_ok d -> Forall lexeme (written d) -> ident_word (td_name pl (decl_name d)) ->
  In t (typedef_text d (td_name pl (decl_name d))) -> format_prototype t = Ok t' ->
  tokens t' = flat_map split_dots (written (renamed d (td_name pl (decl_name d)))).
Proof. intros H1 H2 H3 H4 H5. rewrite (format_tokens _ _ H5). now apply typedef_text_tokens. Qed.

Lemma replace_terminates c from to s : ~ In c to -> exists r, replace (c :: from) to s = Ok r /\ rewrites (c :: from) to s r /\ ~ occurs (c :: from) r.
Proof. intro H. destruct (replace_total_fresh c from to s H) as (r & E). exists r. split; [easy|]. now apply replace_sound. Qed.
Lemma replace_shorter from to s : length to < length from -> exists r, replace from to s = Ok r /\ rewrites from to s r /\ ~ occurs from r.
Proof. intro H. destruct (replace_total_shorter from to s H) as (r & E). exists r. split; [easy|]. now apply replace_sound. Qed.
