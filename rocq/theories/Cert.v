(** * The certificate: the parser table implements the grammar

    For every parser state the stack of open rules with what their productions still allow
    is computed; that the table fits this certificate is checked by computation. *)
From Verif Require Import PyStr Types Line Classify Grammar Deriv ParserTable Table.

Definition frame := (rule * gx)%type.
Definition is_void (a : gx) : bool := match a with GVoid => true | _ => false end.

Definition apply_act (k : tok) (a : act) (fr : list frame) : option (list frame) :=
  match a, fr with
  | AStart r', (r, res) :: frs =>
      let d := deriv (SR r') res in
      if is_void d then None else Some ((r', prod r') :: (r, d) :: frs)
  | AEnd r', (r, res) :: ((_ :: _) as frs) =>
      if rule_eqb r r' && nullable res then Some frs else None
  | ABuild, (r, res) :: frs =>
      let d := deriv (ST k) res in if is_void d then None else Some ((r, d) :: frs)
  | _, _ => None
  end.
Fixpoint apply_acts (k : tok) (l : list act) (fr : list frame) : option (list frame) :=
  match l with
  | [] => Some fr
  | a :: l' => match apply_act k a fr with Some fr' => apply_acts k l' fr' | None => None end
  end.

Definition frame_eqb (a b : frame) : bool := rule_eqb (fst a) (fst b) && gx_eqb (snd a) (snd b).
Fixpoint frames_eqb (a b : list frame) : bool :=
  match a, b with
  | [], [] => true
  | x :: a', y :: b' => frame_eqb x y && frames_eqb a' b'
  | _, _ => false
  end.
Lemma frames_eqb_spec a b : frames_eqb a b = true <-> a = b.
Proof.
  revert b. induction a as [|[r x] a IH]; destruct b as [|[r' y] b]; cbn; try (split; congruence).
  unfold frame_eqb. cbn. rewrite !andb_true_iff, rule_eqb_spec, gx_eqb_spec, IH.
  split; [intros [[-> ->] ->]; easy | intros H; injection H; auto].
Qed.

(** ** Computing the certificate *)
Definition look (q : nat) (l : list (nat * list frame)) : option (list frame) :=
  match find (fun p => Nat.eqb (fst p) q) l with Some (_, f) => Some f | None => None end.
Fixpoint add_new (trs : list trans) (fr : list frame) (acc : list (nat * list frame)) (todo : list nat)
  : list (nat * list frame) * list nat :=
  match trs with
  | [] => (acc, todo)
  | tr :: trs' =>
      match look (tr_next tr) acc, apply_acts (tr_tok tr) (tr_acts tr) fr with
      | None, Some fr' => add_new trs' fr ((tr_next tr, fr') :: acc) (tr_next tr :: todo)
      | _, _ => add_new trs' fr acc todo
      end
  end.
Fixpoint explore (fuel : nat) (acc : list (nat * list frame)) (todo : list nat) : list (nat * list frame) :=
  match fuel, todo with
  | S f, q :: todo' =>
      match look q acc, ptable q with
      | Some fr, Some st => let (acc', todo'') := add_new (st_trans st) fr acc todo' in explore f acc' todo''
      | _, _ => explore f acc todo'
      end
  | _, _ => acc
  end.
Definition cert_list : list (nat * list frame) :=
  Eval vm_compute in explore 200 [(0, [(RGherkinDocument, prod RGherkinDocument)])] [0].
Definition cert (q : nat) : option (list frame) := look q cert_list.

(** ** Check 1: every transition follows the grammar *)
Definition check_sound (q : nat) (st : pstate) : bool :=
  match cert q with
  | None => false
  | Some fr =>
      forallb (fun tr =>
        match apply_acts (tr_tok tr) (tr_acts tr) fr, cert (tr_next tr) with
        | Some fr', Some fr'' => frames_eqb fr' fr''
        | _, _ => false
        end) (st_trans st)
  end.
Lemma sound_ok : all_states check_sound = true.
Proof. vm_compute. reflexivity. Qed.

(** ** Check 2: every move the grammar allows is in the table *)
Definition all_rules : list rule :=
  [RGherkinDocument; RFeature; RFeatureHeader; RRule; RRuleHeader; RBackground; RScenarioDefinition;
   RScenario; RExamplesDefinition; RExamples; RExamplesTable; RStep; RDataTable; RDocString; RTags; RDescription].
Definition all_toks : list tok :=
  [TkEOF; TkEmpty; TkComment; TkTagLine; TkFeatureLine; TkRuleLine; TkBackgroundLine; TkScenarioLine;
   TkExamplesLine; TkStepLine; TkDocStringSeparator; TkTableRow; TkLanguage; TkOther].

(** the ways to reach a token of kind [k] from the frames [fr] by starting rules and building;
    the pair ([], _) tells that the depth did not suffice *)
Fixpoint opens (fuel : nat) (k : tok) (fr : list frame) : list (list act * list frame) :=
  match fr with
  | [] => []
  | (r, res) :: frs =>
      (let d := deriv (ST k) res in if is_void d then [] else [([ABuild], (r, d) :: frs)]) ++
      flat_map (fun r' =>
        let d := deriv (SR r') res in
        if is_void d then []
        else match fuel with
             | O => [([], fr)]
             | S f => map (fun p => (AStart r' :: fst p, snd p)) (opens f k ((r', prod r') :: (r, d) :: frs))
             end) all_rules
  end.
Fixpoint moves (k : tok) (fr : list frame) : list (list act * list frame) :=
  match fr with
  | [] => []
  | (r, res) :: frs =>
      opens 4 k fr ++
      (if nullable res && negb (match frs with [] => true | _ => false end)
       then map (fun p => (AEnd r :: fst p, snd p)) (moves k frs) else [])
  end.

(** what a lookahead finds, read off the frames after the move: whose tags these are *)
Definition oracle (fr : list frame) (l : lookahead) : bool :=
  match fr with
  | _ :: (p, _) :: _ => rule_eqb p (match l with LA0 => RScenarioDefinition | LA1 => RExamplesDefinition end)
  | _ => false
  end.
Definition fires (o : lookahead -> bool) (tr : trans) : bool :=
  match tr_la tr with None => true | Some l => o l end.
Fixpoint pick (o : lookahead -> bool) (k : tok) (trs : list trans) : option trans :=
  match trs with
  | [] => None
  | tr :: trs' => if tok_eqb (tr_tok tr) k && fires o tr then Some tr else pick o k trs'
  end.
Definition act_eqb (a b : act) : bool :=
  match a, b with AStart r, AStart r' | AEnd r, AEnd r' => rule_eqb r r' | ABuild, ABuild => true | _, _ => false end.
Fixpoint acts_eqb (a b : list act) : bool :=
  match a, b with [], [] => true | x :: a', y :: b' => act_eqb x y && acts_eqb a' b' | _, _ => false end.
Lemma acts_eqb_spec a b : acts_eqb a b = true <-> a = b.
Proof.
  revert b. induction a as [|x a IH]; destruct b as [|y b]; cbn; try (split; congruence).
  rewrite andb_true_iff, IH. assert (E : act_eqb x y = true <-> x = y).
  { destruct x, y; cbn; rewrite ?rule_eqb_spec; split; congruence. }
  rewrite E. split; [intros [-> ->]; easy | intros H; injection H; auto].
Qed.
Definition check_complete (q : nat) (st : pstate) : bool :=
  match cert q with
  | None => false
  | Some fr =>
      forallb (fun k => forallb (fun m : list act * list frame =>
        match pick (oracle (snd m)) k (st_trans st) with
        | Some tr => acts_eqb (tr_acts tr) (fst m) &&
                     match cert (tr_next tr) with Some fr'' => frames_eqb fr'' (snd m) | None => false end
        | None => false
        end) (moves k fr)) all_toks
  end.
Lemma complete_ok : all_states check_complete = true.
Proof. vm_compute. reflexivity. Qed.

(** ** Check 3: the order in which a state tries the line kinds *)

(** the kinds that end a description below rule [p] *)
Definition stop (p : rule) : list tok :=
  match p with
  | RFeatureHeader | RRuleHeader => [TkComment; TkBackgroundLine; TkTagLine; TkScenarioLine; TkRuleLine]
  | RBackground => [TkComment; TkStepLine; TkTagLine; TkScenarioLine; TkRuleLine]
  | RScenario => [TkComment; TkStepLine; TkTagLine; TkExamplesLine; TkScenarioLine; TkRuleLine]
  | RExamples => [TkComment; TkTableRow; TkTagLine; TkExamplesLine; TkScenarioLine; TkRuleLine]
  | _ => []
  end.
Definition tries (k : tok) (l : list trans) : bool := existsb (fun tr => tok_eqb (tr_tok tr) k && is_None (tr_la tr)) l.
Definition only (ks : list tok) (l : list trans) : bool := forallb (fun tr => tok_in (tr_tok tr) ks) l.

(** a doc string is open *)
Definition res_open (r : rule) (res : gx) : bool :=
  rule_eqb r RDocString && negb (gx_eqb res (prod RDocString)) && negb (nullable res).
Definition docopen (fr : list frame) : bool :=
  match fr with (r, res) :: _ => res_open r res | [] => false end.

(** [tr] is preceded by [before] and followed by [after]; it leads from [fr] via [fr1] (all but the
    last action, which builds the token) *)
Definition order_at (fr : list frame) (before : list trans) (tr : trans) (after : list trans) : bool :=
  match apply_acts (tr_tok tr) (removelast (tr_acts tr)) fr with
  | Some ((r, res) :: frs) =>
      acts_eqb (tr_acts tr) (removelast (tr_acts tr) ++ [ABuild]) &&
      negb (existsb (act_eqb ABuild) (removelast (tr_acts tr))) &&
      Bool.eqb (docopen fr) (res_open r res) &&
      let k := tr_tok tr in
      let p := match frs with (p, _) :: _ => p | [] => RNone end in
      (match r, k with
       | RDescription, TkOther =>
           let first := gx_eqb res (prod RDescription) in
           forallb (fun k => tries k before) (stop p) &&
           Bool.eqb (tries TkEmpty before) first &&
           only (TkEOF :: (if first then [TkEmpty] else []) ++ stop p) before
       | RDocString, TkOther => docopen fr && tries TkDocStringSeparator before && only [TkEOF; TkDocStringSeparator] before
       | RDocString, TkDocStringSeparator => negb (docopen fr) || only [TkEOF] before
       | RGherkinDocument, TkComment => tries TkLanguage before
       | RDescription, _ | _, TkOther => false
       | _, TkDocStringSeparator => false
       | _, _ => true
       end) &&
      (if tok_eqb k TkOther then match after with [] => true | _ => false end else true) &&
      (if tok_eqb k TkLanguage then only [TkEOF] before else true) &&
      (if tok_eqb k TkDocStringSeparator || tok_eqb k TkOther then true else negb (docopen fr)) &&
      match cert (tr_next tr) with
      | Some fr' => Bool.eqb (docopen fr') (if tok_eqb k TkDocStringSeparator then negb (docopen fr) else docopen fr)
      | None => false
      end
  | _ => false
  end.
Fixpoint order_go (fr : list frame) (before trs : list trans) : bool :=
  match trs with
  | [] => true
  | tr :: after => order_at fr before tr after && order_go fr (before ++ [tr]) after
  end.
Definition check_order (q : nat) (st : pstate) : bool :=
  match cert q with Some fr => order_go fr [] (st_trans st) | None => false end.
Lemma order_ok : all_states check_order = true.
Proof. vm_compute. reflexivity. Qed.
