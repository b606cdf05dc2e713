(** * Glob patterns and file iteration

    Model of src/GherkinParser/glob_path.py. *)
From Verif Require Import PyStr Types Regex.
Local Open Scope N_scope.

(** glob_path.py:37-41: the stars following the first one *)
Fixpoint skip_stars (x : str) : nat * str :=
  match x with
  | c :: x' => if c =? 42 then let (n, r) := skip_stars x' in (S n, r) else (O, x)
  | [] => (O, [])
  end.

Definition opt_is (o : option char) (c : char) : bool :=
  match o with Some d => d =? c | None => true end.

(** glob_path.py:9-61 [_glob_pattern_to_re], the loop: [prev] is pattern[i-1].
    The fuel is the number of characters left, and every round consumes one. *)
Fixpoint glob_go (fuel : nat) (prev : option char) (in_group : bool) (x : str) : str :=
  match fuel with
  | O => []
  | S f =>
      match x with
      | [] => []
      | c :: x' =>
          if existsb (N.eqb c) (s "\/$^+.()=!|") then ch_bslash :: c :: glob_go f (Some c) in_group x'  (* :18-19 *)
          else if c =? 63 (* ? *) then s "." ++ glob_go f (Some c) in_group x'                          (* :20-21 *)
          else if (c =? 91) || (c =? 93) then c :: glob_go f (Some c) in_group x'                       (* :22-23 *)
          else if c =? 123 (* { *) then s "(" ++ glob_go f (Some c) true x'                             (* :24-26 *)
          else if c =? 125 (* } *) then s ")" ++ glob_go f (Some c) false x'                            (* :27-29 *)
          else if c =? ch_comma then                                                                    (* :30-34 *)
            (if in_group then s "|" else s "\,") ++ glob_go f (Some c) in_group x'
          else if c =? 42 (* star *) then                                                               (* :35-53 *)
            let (more, rest) := skip_stars x' in
            if Nat.ltb 0 more && opt_is prev ch_slash && opt_is (hd_error rest) ch_slash
            then s "((?:[^/]*(?:/|$))*)" ++
                 glob_go f (match rest with d :: _ => Some d | [] => Some c end) in_group (tl rest)
            else s "([^/]*)" ++ glob_go f (Some c) in_group rest
          else c :: glob_go f (Some c) in_group x'                                                      (* :54-55 *)
      end
  end.
Definition glob_pattern_to_re (x : str) : str :=
  s "(?ms)^" ++ glob_go (length x) None false x ++ s "$".

(** glob_path.py:65-72 [Pattern.__init__], [Pattern.matches]: [path] is the string of the
    path with "/" as separator (POSIX; os.sep is "/") *)
Definition glob_compile (pattern : str) : result re := re_parse (glob_pattern_to_re pattern).
Definition glob_matches (pattern path : str) : result bool :=
  rbind (glob_compile pattern) (fun r => Ok (re_fullmatch r path)).

(** ** Directory trees

    An entry is a file, or a directory with its entries in the order in which the
    file system lists them; None: listing it raises PermissionError.  Not modelled:
    symbolic links, special files, errors of [is_dir], changes during iteration. *)
Inductive entry := EFile | EDir (content : option (list (str * entry))).

(** str(path.relative_to(base)) for the path with these components *)
Definition path_str (p : list str) : str := join [ch_slash] p.

(** any(p.matches(..) for p in patterns) *)
Definition any_match (patterns : list str) (p : list str) : result bool :=
  fold_right (fun pat acc =>
                rbind (glob_matches pat (path_str p)) (fun b => if b then Ok true else acc))
             (Ok false) patterns.

(** glob_path.py:85-125 [iter_files]: the paths, relative to the base directory, in the order
    in which they are yielded.  Patterns are compiled before the first entry is looked at (:102-110);
    an invalid pattern raises re.error. *)
Fixpoint iter_entry (patterns ignore : option (list str)) (p : list str) (e : entry) {struct e}
  : result (list (list str)) :=
  rbind (match ignore with None => Ok false | Some l => any_match l p end) (fun ignored =>
    if ignored then Ok []
    else
      match e with
      | EFile =>
          rbind (match patterns with None => Ok true | Some l => any_match l p end)
                (fun b => Ok (if b then [p] else []))
      | EDir None => Ok []
      | EDir (Some content) =>
          (fix go (l : list (str * entry)) : result (list (list str)) :=
             match l with
             | [] => Ok []
             | (n, e') :: l' =>
                 rbind (iter_entry patterns ignore (p ++ [n]) e')
                       (fun xs => rbind (go l') (fun ys => Ok (xs ++ ys)))
             end) content
      end).

Fixpoint iter_list (patterns ignore : option (list str)) (p : list str) (l : list (str * entry))
  : result (list (list str)) :=
  match l with
  | [] => Ok []
  | (n, e) :: l' =>
      rbind (iter_entry patterns ignore (p ++ [n]) e)
            (fun xs => rbind (iter_list patterns ignore p l') (fun ys => Ok (xs ++ ys)))
  end.

(** glob_path.py:102-110 *)
Definition compile_all (l : option (list str)) : result unit :=
  match l with
  | None => Ok tt
  | Some l => fold_right (fun p acc => rbind (glob_compile p) (fun _ => acc)) (Ok tt) l
  end.

(** [iter_files(dir, patterns, ignore_patterns)] for a directory with this content *)
Definition iter_files (patterns ignore : option (list str)) (dir : option (list (str * entry)))
  : result (list (list str)) :=
  rbind (compile_all patterns) (fun _ =>
    rbind (compile_all ignore) (fun _ =>
      match dir with
      | None => Ok []
      | Some l => iter_list patterns ignore [] l
      end)).
