(** * Blocks do not depend on line numbers *)
From Verif Require Import PyStr Types Line DialectData Matcher LineSpec LangSpec Ast DocSpec Compiler Glob Robot MiddleSpec.

Section Renumber.
Variable g : nat -> nat.
Notation rl := (ren_line g).
Notation rls := (map (ren_line g)).
Notation rcs := (map (ren_comment g)).

Lemma n_noise ls cs : noise_lines ls cs -> noise_lines (rls ls) (rcs cs).
Proof. induction 1; cbn [map]; [apply nz_nil | now apply nz_blank | apply (nz_comment (rl l)); auto]. Qed.
Lemma n_tags_at l tags : tags_at_line l tags -> tags_at_line (rl l) (map (ren_tag g) tags).
Proof. intros [items [H ->]]. exists items. split; [exact H|]. rewrite map_map. reflexivity. Qed.
Lemma n_row_at l r : row_at_line l r -> row_at_line (rl l) (ren_row g r).
Proof. intros [items [H ->]]. exists items. split; [exact H|]. unfold ren_row. cbn [row_id row_loc row_cells]. rewrite map_map. reflexivity. Qed.
Lemma n_tag_lines ls tags cs : tag_lines ls tags cs -> tag_lines (rls ls) (map (ren_tag g) tags) (rcs cs).
Proof.
  induction 1; cbn [map]; [apply tg_nil | | now apply tg_blank | now apply (tg_comment (rl l))].
  rewrite map_app. apply tg_tags; [now apply n_tags_at | exact IHtag_lines].
Qed.
Lemma n_tags ls tags cs : tags_block ls tags cs -> tags_block (rls ls) (map (ren_tag g) tags) (rcs cs).
Proof.
  intros [[-> [-> ->]]|[l [ls' [t1 [t2 [-> [H1 [H2 ->]]]]]]]]; [now left|]. right. exists (rl l), (rls ls'), (map (ren_tag g) t1), (map (ren_tag g) t2).
  split; [reflexivity|]. split; [now apply n_tags_at|]. split; [now apply n_tag_lines | apply map_app].
Qed.
Lemma n_row_lines ls rows cs : row_lines ls rows cs -> row_lines (rls ls) (map (ren_row g) rows) (rcs cs).
Proof.
  induction 1; cbn [map]; [apply rw_nil | | now apply rw_blank | now apply (rw_comment (rl l))].
  apply rw_row; [now apply n_row_at | exact IHrow_lines].
Qed.
Lemma n_table ls rows cs : table_block ls rows cs -> table_block (rls ls) (map (ren_row g) rows) (rcs cs).
Proof.
  intros [[l [ls' [r [rs [-> [H1 [H2 ->]]]]]]] R]. split.
  - exists (rl l), (rls ls'), (ren_row g r), (map (ren_row g) rs). split; [reflexivity|]. split; [now apply n_row_at|]. split; [now apply n_row_lines | reflexivity].
  - intros x y Hx Hy. apply in_map_iff in Hx as [x' [<- Hx]]. apply in_map_iff in Hy as [y' [<- Hy]]. unfold ren_row. cbn [row_cells]. rewrite !map_length. now apply R.
Qed.
Lemma n_forall (P : str -> Prop) ls : Forall (fun l : nline => P (snd l)) ls -> Forall (fun l : nline => P (snd l)) (rls ls).
Proof. intros H. apply Forall_map. exact H. Qed.
Lemma n_description d p ls desc cs : description_block d p ls desc cs -> description_block d p (rls ls) desc (rcs cs).
Proof.
  intros [bs [lines [rest [-> [H1 [H2 [H3 [H4 H5]]]]]]]]. exists (rls bs), (rls lines), (rls rest). split; [now rewrite !map_app|].
  split; [now apply (n_forall all_space)|]. split; [now apply (n_forall (fun x => ~ ends_description d p x))|]. split; [|split; [now apply n_noise|]].
  - destruct lines as [|l lines]; [exact H3|]. destruct H3 as [H3 [body [last [em [E H]]]]]. split; [exact H3|]. exists body, last, em. split; [|exact H]. rewrite <- E. now rewrite map_map.
  - destruct rest; [exact I | exact H5].
Qed.
Lemma n_doc ls ds cs : doc_block ls ds cs -> doc_block (rls ls) (ren_docstring g ds) (rcs cs).
Proof.
  intros [sep [op [content [cl [rest [media [-> [H1 [H2 [H3 [H4 [H5 [H6 ->]]]]]]]]]]]]]. exists sep, (rl op), (rls content), (rl cl), (rls rest), media.
  split; [cbn [map]; now rewrite map_app|]. split; [exact H1|]. split; [exact H2|]. split; [exact H3|]. split; [now apply (n_forall (fun x => ~ begins sep x))|].
  split; [exact H5|]. split; [now apply n_noise|]. unfold ren_docstring. cbn [ds_loc ds_content ds_delimiter ds_media]. rewrite map_map. reflexivity.
Qed.
Lemma n_arg ls a cs : argument_block ls a cs -> argument_block (rls ls) (ren_arg g a) (rcs cs).
Proof.
  intros [[-> [-> ->]]|[[l [ls' [rows [-> [H ->]]]]]|[ds [H ->]]]]; [now left | right; left | right; right; exists (ren_docstring g ds); split; [now apply n_doc | reflexivity]].
  exists (rl l), (rls ls'), (map (ren_row g) rows). split; [reflexivity|]. split; [|reflexivity]. apply (n_table (l :: ls')). exact H.
Qed.
Section D.
Variable d : dialect.
Lemma n_step ls x cs : step_block d ls x cs -> step_block d (rls ls) (ren_step g x) (rcs cs).
Proof.
  intros [l [noise [arg [kw [text [a [c1 [c2 [-> [H1 [H2 [H3 [-> ->]]]]]]]]]]]]]. exists (rl l), (rls noise), (rls arg), kw, text, (ren_arg g a), (rcs c1), (rcs c2).
  split; [cbn [map]; now rewrite map_app|]. split; [exact H1|]. split; [now apply n_noise|]. split; [now apply n_arg|]. split; [apply map_app | reflexivity].
Qed.
Lemma n_blocks {A} (block : list nline -> A -> list comment -> Prop) (ren : A -> A) :
  (forall ls x cs, block ls x cs -> block (rls ls) (ren x) (rcs cs)) -> forall ls xs cs, blocks block ls xs cs -> blocks block (rls ls) (map ren xs) (rcs cs).
Proof. intros H ls xs cs B. induction B; [constructor|]. cbn [map]. rewrite !map_app. constructor; auto. Qed.
Lemma n_maybe {A} (block : list nline -> A -> list comment -> Prop) (ren : A -> A) :
  (forall ls x cs, block ls x cs -> block (rls ls) (ren x) (rcs cs)) -> forall ls x cs, maybe block ls x cs -> maybe block (rls ls) (option_map ren x) (rcs cs).
Proof. intros H ls [x|] cs B; cbn in *; [now apply H | now destruct B as [-> ->]]. Qed.
Lemma n_background ls x cs : background_block d ls x cs -> background_block d (rls ls) (ren_background g x) (rcs cs).
Proof.
  intros [l [dl [sl [kw [name [desc [steps [c1 [c2 [-> [H1 [H2 [H3 [-> ->]]]]]]]]]]]]]]. exists (rl l), (rls dl), (rls sl), kw, name, desc, (map (ren_step g) steps), (rcs c1), (rcs c2).
  split; [cbn [map]; now rewrite map_app|]. split; [exact H1|]. split; [now apply n_description|]. split; [now apply (n_blocks _ _ n_step)|]. split; [apply map_app | reflexivity].
Qed.
Lemma n_examples ls x cs : examples_block d ls x cs -> examples_block d (rls ls) (ren_examples g x) (rcs cs).
Proof.
  intros [tl [l [dl [el [tags [kw [name [desc [rows [c0 [c1 [c2 [-> [H0 [H1 [H2 [H3 [-> ->]]]]]]]]]]]]]]]]]].
  exists (rls tl), (rl l), (rls dl), (rls el), (map (ren_tag g) tags), kw, name, desc, (option_map (map (ren_row g)) rows), (rcs c0), (rcs c1), (rcs c2).
  split; [rewrite map_app; cbn [map]; now rewrite map_app|]. split; [now apply n_tags|]. split; [exact H1|]. split; [now apply n_description|]. split; [now apply (n_maybe _ _ n_table)|].
  split; [now rewrite !map_app|]. destruct rows as [[|h b]|]; reflexivity.
Qed.
Lemma n_scenario ls x cs : scenario_block d ls x cs -> scenario_block d (rls ls) (ren_scenario g x) (rcs cs).
Proof.
  intros [tl [l [dl [sl [el [tags [kw [name [desc [steps [exs [c0 [c1 [c2 [c3 [-> [H0 [H1 [H2 [H3 [H4 [-> ->]]]]]]]]]]]]]]]]]]]]]].
  exists (rls tl), (rl l), (rls dl), (rls sl), (rls el), (map (ren_tag g) tags), kw, name, desc, (map (ren_step g) steps), (map (ren_examples g) exs), (rcs c0), (rcs c1), (rcs c2), (rcs c3).
  split; [rewrite map_app; cbn [map]; now rewrite !map_app|]. split; [now apply n_tags|]. split; [exact H1|]. split; [now apply n_description|]. split; [now apply (n_blocks _ _ n_step)|].
  split; [now apply (n_blocks _ _ n_examples)|]. split; [now rewrite !map_app | reflexivity].
Qed.
Lemma n_rule ls x cs : rule_block d ls x cs -> rule_block d (rls ls) (ren_rule g x) (rcs cs).
Proof.
  intros [tl [l [dl [bl [sl [tags [kw [name [desc [bg [scs [c0 [c1 [c2 [c3 [-> [H0 [H1 [H2 [H3 [H4 [-> ->]]]]]]]]]]]]]]]]]]]]]].
  exists (rls tl), (rl l), (rls dl), (rls bl), (rls sl), (map (ren_tag g) tags), kw, name, desc, (option_map (ren_background g) bg), (map (ren_scenario g) scs), (rcs c0), (rcs c1), (rcs c2), (rcs c3).
  split; [rewrite map_app; cbn [map]; now rewrite !map_app|]. split; [now apply n_tags|]. split; [exact H1|]. split; [now apply n_description|]. split; [now apply (n_maybe _ _ n_background)|].
  split; [now apply (n_blocks _ _ n_scenario)|]. split; [now rewrite !map_app | reflexivity].
Qed.
Lemma n_feature lang ls x cs : feature_block d lang ls x cs -> feature_block d lang (rls ls) (ren_feature g x) (rcs cs).
Proof.
  intros [tl [l [dl [bl [sl [ul [tags [kw [name [desc [bg [scs [rus [c0 [c1 [c2 [c3 [c4 [-> [H0 [H1 [H2 [H3 [H4 [H5 [-> ->]]]]]]]]]]]]]]]]]]]]]]]]]].
  exists (rls tl), (rl l), (rls dl), (rls bl), (rls sl), (rls ul), (map (ren_tag g) tags), kw, name, desc, (option_map (ren_background g) bg), (map (ren_scenario g) scs), (map (ren_rule g) rus), (rcs c0), (rcs c1), (rcs c2), (rcs c3), (rcs c4).
  split; [rewrite map_app; cbn [map]; now rewrite !map_app|]. split; [now apply n_tags|]. split; [exact H1|]. split; [now apply n_description|]. split; [now apply (n_maybe _ _ n_background)|].
  split; [now apply (n_blocks _ _ n_scenario)|]. split; [now apply (n_blocks _ _ n_rule)|]. split; [now rewrite !map_app | reflexivity].
Qed.
End D.
Lemma n_preamble ls cs : preamble ls cs -> preamble (rls ls) (rcs cs).
Proof. intros [H1 H2]. split; [now apply n_noise | now apply (n_forall (fun x => forall name, ~ language_line x name))]. Qed.
Lemma n_stands lang ls doc : stands_for lang ls doc -> stands_for lang (rls ls) (ren_gdoc g doc).
Proof.
  intros [[cs [H ->]]|[[pre [fl [d [f [c0 [c1 [-> [H1 [H2 [H3 ->]]]]]]]]]]|[pre [h [mid [fl [name [d [f [c0 [c1 [c2 [-> [H1 [H2 [H3 [H4 [H5 ->]]]]]]]]]]]]]]]]]].
  - left. exists (rcs cs). split; [now apply n_preamble | reflexivity].
  - right. left. exists (rls pre), (rls fl), d, (ren_feature g f), (rcs c0), (rcs c1). split; [apply map_app|]. split; [now apply n_preamble|]. split; [exact H2|]. split; [now apply n_feature|]. unfold ren_gdoc. cbn. now rewrite map_app.
  - right. right. exists (rls pre), (rl h), (rls mid), (rls fl), name, d, (ren_feature g f), (rcs c0), (rcs c1), (rcs c2). split; [rewrite map_app; cbn [map]; now rewrite map_app|]. split; [now apply n_preamble|].
    split; [exact H2|]. split; [exact H3|]. split; [now apply n_noise|]. split; [now apply n_feature|]. unfold ren_gdoc. cbn. now rewrite !map_app.
Qed.
End Renumber.
