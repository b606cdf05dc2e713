(** * The Gherkin grammar

    Specification: regular right-hand sides, their language, syntax trees.  [published] is
    /repo/packages/gurke/gherkin.berp; [prod] is the same grammar with the ignored tokens
    (blank and comment lines) made explicit. *)
From Verif Require Import PyStr Types Line.

Inductive sym := ST (k : tok) | SR (r : rule).
Definition sym_eqb (a b : sym) : bool :=
  match a, b with ST x, ST y => tok_eqb x y | SR x, SR y => rule_eqb x y | _, _ => false end.

Inductive gx :=
| GVoid | GEps | GSym (s : sym) | GCat (a b : gx) | GAlt (a b : gx) | GStar (a : gx).

(** the language of a right-hand side *)
Inductive matches : gx -> list sym -> Prop :=
| m_eps : matches GEps []
| m_sym s : matches (GSym s) [s]
| m_cat a b u v : matches a u -> matches b v -> matches (GCat a b) (u ++ v)
| m_altl a b u : matches a u -> matches (GAlt a b) u
| m_altr a b u : matches b u -> matches (GAlt a b) u
| m_star0 a : matches (GStar a) []
| m_star a u v : matches a u -> matches (GStar a) v -> matches (GStar a) (u ++ v).

Definition T (k : tok) : gx := GSym (ST k).
Definition R (r : rule) : gx := GSym (SR r).
Definition gopt (a : gx) : gx := GAlt a GEps.
Fixpoint gseq (l : list gx) : gx :=
  match l with [] => GEps | [a] => a | a :: l' => GCat a (gseq l') end.
Definition gplus (a : gx) : gx := GCat a (GStar a).

(** ** The published grammar, gherkin.berp:8-43 *)
Definition DescriptionHelper : gx := gopt (R RDescription).   (* :42 without the ignored tokens *)
Definition published (r : rule) : gx :=
  match r with
  | RGherkinDocument => gopt (R RFeature)
  | RFeature => gseq [R RFeatureHeader; gopt (R RBackground); GStar (R RScenarioDefinition); GStar (R RRule)]
  | RFeatureHeader => gseq [gopt (T TkLanguage); gopt (R RTags); T TkFeatureLine; DescriptionHelper]
  | RRule => gseq [R RRuleHeader; gopt (R RBackground); GStar (R RScenarioDefinition)]
  | RRuleHeader => gseq [gopt (R RTags); T TkRuleLine; DescriptionHelper]
  | RBackground => gseq [T TkBackgroundLine; DescriptionHelper; GStar (R RStep)]
  | RScenarioDefinition => gseq [gopt (R RTags); R RScenario]
  | RScenario => gseq [T TkScenarioLine; DescriptionHelper; GStar (R RStep); GStar (R RExamplesDefinition)]
  | RExamplesDefinition => gseq [gopt (R RTags); R RExamples]
  | RExamples => gseq [T TkExamplesLine; DescriptionHelper; gopt (R RExamplesTable)]
  | RExamplesTable => gplus (T TkTableRow)
  | RStep => gseq [T TkStepLine; gopt (GAlt (R RDataTable) (R RDocString))]
  | RDataTable => gplus (T TkTableRow)
  | RDocString => gseq [T TkDocStringSeparator; GStar (T TkOther); T TkDocStringSeparator]
  | RTags => gplus (T TkTagLine)
  | RDescription => gplus (T TkOther)
  | RNone => GVoid
  end.

(** ** With blank lines, comments and the end of the file *)
Definition noise : gx := GStar (GAlt (T TkEmpty) (T TkComment)).
Definition desc_helper : list gx :=
  [GStar (T TkEmpty); gopt (R RDescription); gopt (GCat (T TkComment) noise)].
Definition rows : gx := GCat (T TkTableRow) (GStar (GAlt (T TkTableRow) (GAlt (T TkEmpty) (T TkComment)))).
Definition prod (r : rule) : gx :=
  match r with
  | RGherkinDocument => gseq [noise; gopt (R RFeature); T TkEOF]
  | RFeature => gseq [R RFeatureHeader; gopt (R RBackground); GStar (R RScenarioDefinition); GStar (R RRule)]
  | RFeatureHeader => gseq ([gopt (GCat (T TkLanguage) noise); gopt (R RTags); T TkFeatureLine] ++ desc_helper)
  | RRule => gseq [R RRuleHeader; gopt (R RBackground); GStar (R RScenarioDefinition)]
  | RRuleHeader => gseq ([gopt (R RTags); T TkRuleLine] ++ desc_helper)
  | RBackground => gseq ([T TkBackgroundLine] ++ desc_helper ++ [GStar (R RStep)])
  | RScenarioDefinition => gseq [gopt (R RTags); R RScenario]
  | RScenario => gseq ([T TkScenarioLine] ++ desc_helper ++ [GStar (R RStep); GStar (R RExamplesDefinition)])
  | RExamplesDefinition => gseq [gopt (R RTags); R RExamples]
  | RExamples => gseq ([T TkExamplesLine] ++ desc_helper ++ [gopt (R RExamplesTable)])
  | RExamplesTable => rows
  | RStep => gseq [T TkStepLine; noise; gopt (GAlt (R RDataTable) (R RDocString))]
  | RDataTable => rows
  | RDocString => gseq [T TkDocStringSeparator; GStar (T TkOther); T TkDocStringSeparator; noise]
  | RTags => GCat (T TkTagLine) (GStar (GAlt (T TkTagLine) (GAlt (T TkEmpty) (T TkComment))))
  | RDescription => gplus (T TkOther)
  | RNone => GVoid
  end.

(** ** Syntax trees with leaves of type [A] *)
Inductive tree (A : Type) := Leaf (a : A) | Node (r : rule) (l : list (tree A)).
Arguments Leaf {A} a.
Arguments Node {A} r l.

Section Trees.
Context {A : Type} (kind : A -> tok).

Definition root_sym (t : tree A) : sym :=
  match t with Leaf a => ST (kind a) | Node r _ => SR r end.
Definition syms (l : list (tree A)) : list sym := map root_sym l.

(** the leaves, from left to right *)
Fixpoint yield (t : tree A) : list A :=
  match t with Leaf a => [a] | Node _ l => flat_map yield l end.
Definition yields (l : list (tree A)) : list A := flat_map yield l.

(** all inner nodes conform to the productions [P] *)
Inductive conforms (P : rule -> list sym -> Prop) : tree A -> Prop :=
| cf_leaf a : conforms P (Leaf a)
| cf_node r l : P r (syms l) -> Forall (conforms P) l -> conforms P (Node r l).

Definition wf : tree A -> Prop := conforms (fun r w => matches (prod r) w).

(** the ignored tokens, gherkin.berp:3, and the end-of-file token *)
Definition ignored (s : sym) : bool :=
  match s with ST TkEmpty | ST TkComment | ST TkEOF => true | _ => false end.
(** children conform to the published grammar when ignored tokens are left out *)
Definition wf_published : tree A -> Prop :=
  conforms (fun r w => matches (published r) (filter (fun x => negb (ignored x)) w)).
End Trees.

Fixpoint tree_map {A B} (f : A -> B) (t : tree A) : tree B :=
  match t with Leaf a => Leaf (f a) | Node r l => Node r (map (tree_map f) l) end.

(** the kind of a matched token *)
Definition tok_kind (t : token) : tok := match t_mtype t with Some k => k | None => TkOther end.
