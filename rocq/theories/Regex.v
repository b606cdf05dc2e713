(** * The fragment of Python's [re] that the code uses

    A backtracking matcher as a "list of successes": [exec r st] lists, in the
    order in which a backtracking engine tries them, the states reached by
    matching [r] at [st]; the first element is the match the engine reports.
    This models the library module [re], not code of the repository.

    Simplifications: an iteration of a star that consumes nothing is not taken
    (it can only change groups inside the starred expression, and no pattern of
    the repository has groups there that are read back); quantifiers are greedy
    (no pattern of the repository is lazy). *)
From Verif Require Import PyStr Types.
Local Open Scope N_scope.

Inductive citem := CChar (c : char) | CRange (a b : char) | CSpace | CNonSpace.
Inductive re :=
| REps
| RSet (neg : bool) (l : list citem)  (* [..], [^..], and single characters *)
| RAny                                (* . with DOTALL *)
| RDot                                (* . without DOTALL: anything but LF *)
| RSeq (a b : re)
| RAlt (a b : re)
| RStar (a : re)
| RGrp (n : nat) (a : re)
| RBol                                (* ^ without MULTILINE *)
| REol                                (* $ without MULTILINE: end, or before a final LF *)
| RBolM                               (* ^ with MULTILINE *)
| REolM.                              (* $ with MULTILINE: end, or before any LF *)

Definition RChar (c : char) : re := RSet false [CChar c].
Definition RPlus (a : re) : re := RSeq a (RStar a).
Definition ROpt (a : re) : re := RAlt a REps.
Fixpoint RLit (x : str) : re :=
  match x with [] => REps | c :: x' => RSeq (RChar c) (RLit x') end.
Fixpoint RAlts (l : list re) : re :=
  match l with [] => REps | [r] => r | r :: l' => RAlt r (RAlts l') end.

Definition citem_has (c : char) (i : citem) : bool :=
  match i with
  | CChar d => c =? d
  | CRange a b => (a <=? c) && (c <=? b)
  | CSpace => is_space c
  | CNonSpace => negb (is_space c)
  end.
Definition cset_has (neg : bool) (l : list citem) (c : char) : bool :=
  xorb neg (existsb (citem_has c) l).

(** matching state: previous character, rest of the subject, groups *)
Record rst := mkR { r_prev : option char; r_rest : str; r_caps : list (nat * str) }.

Definition step1 (f : char -> bool) (st : rst) : list rst :=
  match r_rest st with
  | [] => []
  | c :: x => if f c then [mkR (Some c) x (r_caps st)] else []
  end.

Fixpoint star_go (body : rst -> list rst) (fuel : nat) (st : rst) : list rst :=
  match fuel with
  | O => [st]
  | S f =>
      flat_map (fun st' => if Nat.ltb (length (r_rest st')) (length (r_rest st))
                           then star_go body f st' else [])
               (body st)
      ++ [st]
  end.

Fixpoint exec (r : re) (st : rst) : list rst :=
  match r with
  | REps => [st]
  | RSet neg l => step1 (cset_has neg l) st
  | RAny => step1 (fun _ => true) st
  | RDot => step1 (fun c => negb (c =? ch_nl)) st
  | RSeq a b => flat_map (exec b) (exec a st)
  | RAlt a b => exec a st ++ exec b st
  | RStar a => star_go (exec a) (length (r_rest st)) st
  | RGrp n a =>
      map (fun st' => mkR (r_prev st') (r_rest st')
             ((n, firstn (length (r_rest st) - length (r_rest st')) (r_rest st)) :: r_caps st'))
          (exec a st)
  | RBol => match r_prev st with None => [st] | Some _ => [] end
  | RBolM => match r_prev st with
             | None => [st]
             | Some c => if c =? ch_nl then [st] else []
             end
  | REol => match r_rest st with
            | [] => [st]
            | [c] => if c =? ch_nl then [st] else []
            | _ => []
            end
  | REolM => match r_rest st with
             | [] => [st]
             | c :: _ => if c =? ch_nl then [st] else []
             end
  end.

Definition rinit (x : str) : rst := mkR None x [].

(** [m.group(n)] (the innermost-last capture wins; every group is read at most once here) *)
Definition group (n : nat) (st : rst) : option str :=
  match find (fun p => Nat.eqb (fst p) n) (r_caps st) with
  | Some (_, x) => Some x
  | None => None
  end.

(** [re.match(r, x)] *)
Definition re_match (r : re) (x : str) : option rst := hd_error (exec r (rinit x)).

(** [re.search(r, x)]: the leftmost start position at which [r] matches; the
    result is the text before the match and the final state. *)
Fixpoint search_go (r : re) (prev : option char) (x before : str) : option (str * rst) :=
  match exec r (mkR prev x []) with
  | st :: _ => Some (rev before, st)
  | [] => match x with
          | [] => None
          | c :: x' => search_go r (Some c) x' (c :: before)
          end
  end.
Definition re_search (r : re) (x : str) : option (str * rst) := search_go r None x [].

(** [re.fullmatch(r, x)] is not None *)
Definition re_fullmatch (r : re) (x : str) : bool :=
  existsb (fun st => match r_rest st with [] => true | _ => false end) (exec r (rinit x)).

(** [re.sub(r, by_, x)] with a literal replacement.  [skip]: characters of the
    current match still to be dropped; [adv]: an empty match was just replaced
    at this position, so the next match here must not be empty
    (CPython's [must_advance]). *)
Definition first_match (r : re) (prev : option char) (x : str) (adv : bool) : option rst :=
  find (fun st => if adv then Nat.ltb (length (r_rest st)) (length x) else true)
       (exec r (mkR prev x [])).

Fixpoint sub_go (r : re) (by_ : str) (prev : option char) (skip : nat) (x : str) : str :=
  match x with
  | [] => match first_match r prev [] false with
          | Some _ => by_
          | None => []
          end
  | c :: x' =>
      match skip with
      | S k => sub_go r by_ (Some c) k x'
      | O =>
          match first_match r prev x false with
          | None => c :: sub_go r by_ (Some c) 0 x'
          | Some st =>
              let len := (length x - length (r_rest st))%nat in
              match len with
              | S k => by_ ++ sub_go r by_ (Some c) k x'
              | O =>
                  by_ ++
                  match first_match r prev x true with
                  | Some st' => by_ ++ sub_go r by_ (Some c) (length x - length (r_rest st') - 1)%nat x'
                  | None => c :: sub_go r by_ (Some c) 0 x'
                  end
              end
          end
      end
  end.
Definition re_sub (r : re) (by_ x : str) : str := sub_go r by_ None 0 x.

(** ** Pattern strings

    [re.compile] for the fragment of the syntax described by the parser below.
    Groups are not numbered (no caller of [re_parse] reads groups).  [Err
    EReError] where CPython raises re.error, [Err EUnmodelled] for syntax
    outside the fragment. *)
Definition is_digit (c : char) : bool := (48 <=? c) && (c <=? 57).
Definition is_alpha (c : char) : bool := ((65 <=? c) && (c <=? 90)) || ((97 <=? c) && (c <=? 122)).

(** characters with a meaning of their own in a pattern: \ . ^ $ * + ? { [ ] | ( ) and } *)
Definition re_special (c : char) : bool :=
  existsb (N.eqb c) (s "\.^$*+?{}[]|()").

(** an escape \c outside or inside a class *)
Definition p_escape (c : char) : result citem :=
  if c =? ch_n then Ok (CChar ch_nl)
  else if c =? 116 (* t *) then Ok (CChar ch_tab)
  else if c =? 115 (* s *) then Ok CSpace
  else if c =? 83 (* S *) then Ok CNonSpace
  else if is_alpha c || is_digit c then Err EUnmodelled
  else Ok (CChar c).

(** items of a character class up to the closing bracket *)
Fixpoint p_class (fuel : nat) (first : bool) (x : str) : result (list citem * str) :=
  match fuel with
  | O => Err EUnmodelled
  | S f =>
      match x with
      | [] => Err EReError                               (* unterminated character set *)
      | c :: x1 =>
          if (c =? 93 (* ] *)) && negb first then Ok ([], x1)
          else
            match (if c =? ch_bslash
                   then match x1 with
                        | [] => Err EReError
                        | d :: x2 => rbind (p_escape d) (fun i => Ok (i, x2))
                        end
                   else Ok (CChar c, x1)) with
            | Err e => Err e
            | Ok (i, x2) =>
                match x2 with
                | m :: d :: x3 =>
                    if (m =? 45 (* - *)) && negb (d =? 93) then
                      match i with
                      | CChar a =>
                          if d =? ch_bslash then Err EUnmodelled
                          else if a <=? d
                               then rbind (p_class f false x3) (fun q => Ok (CRange a d :: fst q, snd q))
                               else Err EReError         (* bad character range *)
                      | _ => Err EReError
                      end
                    else rbind (p_class f false x2) (fun q => Ok (i :: fst q, snd q))
                | _ => rbind (p_class f false x2) (fun q => Ok (i :: fst q, snd q))
                end
            end
      end
  end.

(** an anchor cannot be repeated (nothing to repeat) *)
Definition is_anchor (a : re) : bool := match a with RBol | RBolM | REol | REolM => true | _ => false end.
(** a repetition {m}, {m,n}, {,n} may begin here *)
Definition p_braces (x : str) : bool := match x with d :: _ => is_digit d || (d =? ch_comma) | [] => false end.
(** a quantifier after an atom: *, +, ?; a second quantifier is an error
    (multiple repeat) or lazy/possessive syntax *)
Definition p_quant (a : re) (x : str) : result (re * str) :=
  let chk (r : re) (rest : str) :=
    match rest with
    | d :: _ => if (d =? 42) then Err EReError
                else if (d =? 43) || (d =? 63) || (d =? 123) then Err EUnmodelled
                else Ok (r, rest)
    | [] => Ok (r, rest)
    end in
  match x with
  | [] => Ok (a, x)
  | c :: rest =>
      if is_anchor a && ((c =? 42) || (c =? 43) || (c =? 63)) then Err EReError   (* nothing to repeat *)
      else if c =? 42 then chk (RStar a) rest
      else if c =? 43 then chk (RPlus a) rest
      else if c =? 63 then chk (ROpt a) rest
      else if c =? 123 then (if p_braces rest then Err EUnmodelled else Ok (a, x))
      else Ok (a, x)
  end.

(** [ml]/[ds]: flags MULTILINE and DOTALL *)
Fixpoint p_alt (ml ds : bool) (f : nat) (x : str) {struct f} : result (re * str) :=
  match f with
  | O => Err EUnmodelled
  | S f =>
      rbind (p_cat ml ds f x) (fun q =>
        match snd q with
        | c :: rest =>
            if c =? ch_pipe
            then rbind (p_alt ml ds f rest) (fun q' => Ok (RAlt (fst q) (fst q'), snd q'))
            else Ok q
        | [] => Ok q
        end)
  end
with p_cat (ml ds : bool) (f : nat) (x : str) {struct f} : result (re * str) :=
  match f with
  | O => Err EUnmodelled
  | S f =>
      match x with
      | [] => Ok (REps, [])
      | c :: x1 =>
          if (c =? ch_pipe) || (c =? 41 (* ) *)) then Ok (REps, x)
          else
            rbind
              (if c =? ch_bslash then
                 match x1 with
                 | [] => Err EReError                         (* bad escape (end of pattern) *)
                 | d :: x2 => rbind (p_escape d) (fun i => Ok (RSet false [i], x2))
                 end
               else if c =? 46 then Ok ((if ds then RAny else RDot), x1)
               else if c =? 94 then Ok ((if ml then RBolM else RBol), x1)
               else if c =? 36 then Ok ((if ml then REolM else REol), x1)
               else if (c =? 42) || (c =? 43) || (c =? 63) then Err EReError  (* nothing to repeat *)
               else if (c =? 123 (* { *)) && p_braces x1 then Err EUnmodelled
               else if c =? 91 (* [ *) then
                 match x1 with
                 | d :: x2 =>
                     if d =? 94
                     then rbind (p_class (S (length x2)) true x2) (fun q => Ok (RSet true (fst q), snd q))
                     else rbind (p_class (S (length x1)) true x1) (fun q => Ok (RSet false (fst q), snd q))
                 | [] => Err EReError
                 end
               else if c =? 40 (* ( *) then
                 rbind
                   (match x1 with
                    | d :: e :: x3 => if d =? 63 then (if e =? ch_colon then Ok x3 else Err EUnmodelled) else Ok x1
                    | d :: [] => if d =? 63 then Err EReError else Ok x1
                    | [] => Ok x1
                    end)
                   (fun y => rbind (p_alt ml ds f y) (fun q =>
                      match snd q with
                      | d :: rest => if d =? 41 then Ok (fst q, rest) else Err EReError
                      | [] => Err EReError                     (* missing ) *)
                      end))
               else Ok (RChar c, x1))
              (fun q => rbind (p_quant (fst q) (snd q)) (fun q1 =>
                 rbind (p_cat ml ds f (snd q1)) (fun q2 => Ok (RSeq (fst q1) (fst q2), snd q2))))
      end
  end.

Definition re_parse_flags (ml ds : bool) (x : str) : result re :=
  rbind (p_alt ml ds (2 * length x + 2) x) (fun q =>
    match snd q with [] => Ok (fst q) | _ => Err EReError (* unbalanced parenthesis *) end).

(** [re.compile(x)]; the only inline flag group used by the code is a leading "(?ms)" *)
Definition re_parse (x : str) : result re :=
  if startswith (s "(?ms)") x then re_parse_flags true true (skipn 5 x)
  else re_parse_flags false false x.

(** [re.sub] replacement templates without group references:
    backslash-backslash stands for one backslash; any other escape is outside the fragment. *)
Fixpoint template_literal (x : str) : result str :=
  match x with
  | [] => Ok []
  | c :: x' =>
      if c =? ch_bslash then
        match x' with
        | d :: x'' => if d =? ch_bslash
                      then rbind (template_literal x'') (fun y => Ok (c :: y))
                      else Err EUnmodelled
        | [] => Err EReError
        end
      else rbind (template_literal x') (fun y => Ok (c :: y))
  end.
