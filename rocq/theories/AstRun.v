(** * The parser with the AstBuilder and any matcher *)
From Verif Require Import PyStr PyStrFacts Types Regex Line DialectData Matcher Ast ParserTable Parser Classify Table Scan Grammar Deriv Cert LineSpec Cst Report Eval Ids IdSpec PickleSpec WfDoc AnyRun WeakTree WeakEval.

Section AstRun.
Context (lines : list str) (ids : nat).
Context (I : mstate -> Prop) (Q : token -> Prop) (F : token -> Prop) (Lp : perr -> Prop) (X : exn -> Prop).
Context (N : tok -> gline -> Prop) (H_N : forall k l, N k l -> wrefused k l).
Context (H_lines : lines_ok lines).
Context (H_X : forall e, X e -> match e with EParser _ | EComposite _ => False | _ => True end).
Context (H_new : forall n, n <= length lines -> Q (new_token (nth n lines []) (S n))).
Context (H_match : forall k ms t, I ms -> Q t -> k = TkEOF \/ t_eof t = false ->
  match do_match k ms t with
  | (r, ms', t') => I ms' /\ (r = Ok true /\ k = TkEOF \/ Q t') /\ t_line t' = t_line t /\
      match r with
      | Ok true => wmatched F k t'
      | Ok false => N k (t_line t)
      | Err (EParser p) => Lp p /\ N k (t_line t)
      | Err e => X e
      end
  end).
Context (H_unexpected : forall q st t, ptable q = Some st -> Q t -> (t_eof t = true -> forall tr, In tr (st_trans st) -> tr_tok tr <> TkEOF) ->
  (forall tr, In tr (st_trans st) -> tr_la tr = None -> t_eof t = false -> N (tr_tok tr) (t_line t)) -> Lp (unexpected t (st_expected st))).
Context (H_settled : forall e, Lp e -> Lp (settled e)).
Context (H_place : forall t, F t -> Q t -> rowP Lp (wrap t)).

Definition built (q : nat) (b : astb) (es : list perr) : Prop :=
  exists cs fr, cert q = Some fr /\ winv F [] fr cs /\ image ids cs b es /\ Forall (rowP Lp) (cyield cs).
Lemma built_acts q st before tr after t b es : ptable q = Some st -> st_trans st = before ++ tr :: after ->
  (forall tr0, In tr0 before -> tr_la tr0 = None -> t_eof t = false -> N (tr_tok tr0) (t_line t)) ->
  built q b es -> wmatched F (tr_tok tr) t -> tr_tok tr = TkEOF \/ Q t ->
  match raw_acts ast_builder t (tr_acts tr) b with
  | (es1, r, b') => Forall Lp es1 /\ match r with Ok _ => built (tr_next tr) b' (es ++ es1) | Err e => X e end
  end.
Proof.
  intros Hq E R [cs [fr [C [W [Im Y]]]]] P Ht.
  destruct (trans_weak F q st before tr after t fr cs Hq E (fun tr0 H1 H2 H3 => H_N _ _ (R tr0 H1 H2 H3)) C W P) as [fr' [cs' [T1 [T2 T3]]]].
  assert (Ft : F t) by apply P.
  assert (Rt : rowP Lp (wrap t)).
  { destruct Ht as [Ht|Ht]; [|now apply H_place]. intros K. exfalso. destruct P as [P _]. unfold lkind, tok_kind in K. cbn in K. rewrite P, Ht in K. discriminate K. }
  destruct (wsim_steps F Lp ids (wrap t) _ _ _ T2 Rt b es Im Y) as [es1 [b' [S1 [S2 [S3 S4]]]]].
  change (lf_t (wrap t)) with t in S1. rewrite S1. split; [exact S3|]. exists cs', fr'. auto.
Qed.
Lemma built_end q b es : built q b es ->
  match bd_end ast_builder RGherkinDocument b with (Ok _, _) => True | (Err (EParser p), _) => Lp p | (Err e, _) => X e end.
Proof.
  intros [cs [fr [C [W [Im Y]]]]]. destruct (wsim_end F Lp q fr ids cs b es C W Im Y) as [es1 [b' [R [A _]]]].
  cbn [raw_acts bact] in R. destruct (bd_end ast_builder RGherkinDocument b) as [[u|e] b2]; [exact Logic.I|].
  destruct e; try discriminate R. injection R as <- _. now inversion A.
Qed.
Lemma built_start : built 0 (mkAb [mkNode RGherkinDocument []; mkNode RNone []] [] ids) [].
Proof.
  exists [(RGherkinDocument, [])], [(RGherkinDocument, prod RGherkinDocument)]. split; [reflexivity|]. split; [|split; [split; reflexivity | constructor]].
  cbn [winv]. split; [reflexivity|]. split; [reflexivity|]. split; [apply wleaves_nil|]. split; [constructor | exact Logic.I].
Qed.
Theorem parse_lines_any stop ms ms0 : ms_reset ms = Ok ms0 -> I ms0 ->
  match parse_lines stop ids ms lines with
  | (Ok d, c) => exists l, wtree F (Node RGherkinDocument l) /\ doc_of ids l d (ab_ids (c_b c))
  | (Err e, _) => ends Lp X stop e
  end.
Proof.
  intros Hr Hi. unfold parse_lines.
  pose proof (parse_b_any ast_builder lines I Q (wmatched F) N Lp X built H_lines H_X H_new H_match
    ltac:(intros t P; now apply P) H_unexpected H_settled ast_no_composite
    ltac:(intros; eapply built_acts; eauto) stop (ab_reset ids) _ ms ms0 Hr Hi eq_refl built_start built_end) as M.
  destruct (parse_b ast_builder stop (ab_reset ids) ms lines) as [[u|e] c]; [|exact M].
  destruct M as [q [b [[cs [fr [C [W [Im Y]]]]] [E B]]]]. destruct (wclosed F q fr cs C W E) as [l [-> T]].
  destruct (wsim_end F Lp q fr ids _ b [] C W Im Y) as [es1 [b' [R [_ A]]]]. destruct (A l eq_refl) as [-> [subs [A1 A2]]].
  cbn [raw_acts bact] in R. rewrite B in R. injection R as <-. unfold ab_get_result. rewrite A2. cbn.
  exists l. split; [exact T|]. exists subs. split; [exact A1 | reflexivity].
Qed.
End AstRun.
