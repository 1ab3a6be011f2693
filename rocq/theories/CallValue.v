(** Razor documents with calls: what a call or an expression becomes. *)
From Coq Require Import String Ascii List ZArith NArith Bool Lia ZifyBool ZifyN Permutation.
From Verif Require Import GoStr GoStrFacts Utf8 QuoteModel TemplateModel TemplateSpec TemplateProofs TextModel TextProofs3 RazorExprModel RazorExprProofs RazorWordsModel RazorWordsSpec RazorWordsProofs
  ReModel ReSyntaxModel RazorTableModel RazorAssignModel ReSound RazorRefSpec RazorRefAuto RazorRefProofs RazorRefMain RazorAsgSpec RazorAsgText RazorAsgExpr RazorAsgExpr2 RazorAsgGo RazorAsgGo2 RazorAsgVal RazorAsgVal2 RazorAsgVal3 RazorAsgWrite RazorAsgMatch
  BlockSpec BlockMatch BlockMatch2 BlockValue CallSpec CallAuto CallFits CallMatch.
From Verif Require RegexSpec RegexProofs5.
Import ListNotations.
Local Open Scope char_scope.

Definition tail_parts : list RegexSpec.tpart := [RegexSpec.TText $" "; RegexSpec.TBraces $"reduce2"; RegexSpec.TText $"}}"].
Definition short_parts : list RegexSpec.tpart := [RegexSpec.TText $"{{"; RegexSpec.TBraces $"reduce1"; RegexSpec.TText $" "].
Definition long_parts : list RegexSpec.tpart := [RegexSpec.TText $"{{"; RegexSpec.TBraces $"reduce1"; RegexSpec.TText $" "; RegexSpec.TBraces $"assign"].
Lemma parts_fine : forall h v, h = short_parts \/ h = long_parts -> RegexSpec.tparts_ok (h ++ parts_of v ++ tail_parts).
Proof.
  assert (N : forall n, forallb (fun c => let n := N_of_ascii c in RegexSpec.is_in 48 57 n || RegexSpec.ascii_letter n) n && negb (str_eqb n []) = true -> RegexSpec.name_ok n).
  { intros n H. apply andb_true_iff in H. destruct H as [H NE]. split; [intros ->; discriminate NE|]. apply Forall_forall. intros c I. rewrite forallb_forall in H. specialize (H c I). apply orb_true_iff in H. destruct H as [H|H]; [left | right; left]; exact H. }
  assert (D : forall s, existsb (Ascii.eqb "$") s = false -> ~ In "$" s) by (intros s H I; assert (X : existsb (Ascii.eqb "$") s = true) by (apply existsb_exists; exists "$"; split; [exact I | reflexivity]); congruence).
  intros h v [->| ->]; unfold short_parts, long_parts; cbn [app RegexSpec.tparts_ok]; repeat (split; [first [apply N; reflexivity | apply D; reflexivity]|]); apply parts_ok; unfold tail_parts; cbn [RegexSpec.tparts_ok]; repeat (split; [first [apply N; reflexivity | apply D; reflexivity]|]); exact I.
Qed.
Lemma short_template : forall v, replace_all $"${expr}" (doubled v) short_repl = flat_map RegexSpec.tpart_text (short_parts ++ parts_of v ++ tail_parts).
Proof. intro v. rewrite !flat_map_app, parts_text. reflexivity. Qed.
Lemma long_template : forall v, replace_all $"${expr}" (doubled v) long_repl = flat_map RegexSpec.tpart_text (long_parts ++ parts_of v ++ tail_parts).
Proof. intro v. rewrite !flat_map_app, parts_text. reflexivity. Qed.

Section Value.
Variable beyond : N -> bool.
Variables words signs opers : list (str * str).
Variable parse : str -> option expr.
Variable mode : validation.
Context {P : PrintEnv}.
Hypothesis HW : Permutation words RazorWordsModel.reserved.
Hypothesis HS : Permutation signs symbols.
Hypothesis HO : Permutation opers operator_words.
Variable other : replacement -> parser -> str -> str.
Hypothesis HF : follows_code beyond words signs opers parse mode default_delims other.
Lemma shown_value : forall r names h m E e M g, c_names (r_re r) = names -> (h = short_parts \/ h = long_parts) -> (forall v, replace_all $"${expr}" (doubled v) (r_replace r) = flat_map RegexSpec.tpart_text (h ++ parts_of v ++ tail_parts)) ->
  M <> [] -> starts_low M -> (exists pv, match_at (c_re (r_re r)) (None, M) = Some ((pv, []), g)) -> (forall p, match_at (c_re (r_re r)) (p, []) = None) ->
  named_group names M g $"expr" = E -> named_group names M g $"index" = [] -> named_group names M g $"selection" = [] -> named_group names M g $"assign" = [] ->
  named_group names M g $"reduce1" = (if trims_left m then $"-" else []) -> named_group names M g $"reduce2" = (if trims_right m then $"-" else []) ->
  text_ok E -> parse E = Some e -> expr_ok e -> other r PExprSkip M = action m (G2 e).
Proof.
  intros r names h m E e M g RN HH RP NM LO (pv & LM) NONE G1 G2' G3 G4 G5 G6 T PE OK. apply HF; [discriminate | discriminate|]. cbn [razor_parser]. unfold parse_expression.
  destruct (text_no E T) as (NE & LE & NL).
  assert (GA : forall name, multi_match (r_re r) M name = named_group names M g name).
  { intro name. rewrite (group_at (r_re r) M _ [] pv name LM). rewrite RN. f_equal. pose proof (taken_app None pv M []) as TA. rewrite app_nil_r in TA. exact TA. }
  rewrite !GA. rewrite G1, G2', G3.
  assert (GO : RazorAssignModel.go_text beyond words signs opers E = Ok E) by (apply (go_plain beyond words signs opers HW HS HO); [exact (text_clean E T) | exact (text_dots E T)]).
  assert (GE : match E with [] => Ok [] | _ => RazorAssignModel.go_text beyond words signs opers E end = Ok E) by (destruct E; [contradiction | exact GO]).
  rewrite GE. cbn [bind]. unfold put_parsed.
  assert (PP : forall X Y : res (str * bool), match E with [] => X | _ => Y end = Y) by (intros; destruct E; [contradiction | reflexivity]).
  rewrite PP. rewrite PE. rewrite (node_gen e OK). cbn [bind fst]. f_equal. unfold put_expr. pose proof (restored e OK) as AG. unfold agrees in AG. rewrite AG. rewrite RP.
  rewrite (whole_replace (r_re r) _ M pv g NM LO LM NONE).
  rewrite RN. rewrite RegexProofs5.expanded by (apply parts_fine; exact HH). rewrite !flat_map_app, parts_output.
  assert (R : flat_map (RegexSpec.tpart_output (named_group names M g)) h ++ G2 e ++ flat_map (RegexSpec.tpart_output (named_group names M g)) tail_parts = action m (G2 e)).
  { unfold action. set (f := named_group names M g) in *.
    change (flat_map (RegexSpec.tpart_output f) tail_parts) with ($" " ++ f $"reduce2" ++ $"}}" ++ []).
    assert (HB : flat_map (RegexSpec.tpart_output f) h = $"{{" ++ f $"reduce1" ++ $" ").
    { destruct HH as [->| ->]; [change (flat_map (RegexSpec.tpart_output f) short_parts) with ($"{{" ++ f $"reduce1" ++ $" " ++ []); rewrite !app_nil_r; reflexivity|].
      change (flat_map (RegexSpec.tpart_output f) long_parts) with ($"{{" ++ f $"reduce1" ++ $" " ++ f $"assign" ++ []). rewrite G4. rewrite !app_nil_r. reflexivity. }
    rewrite HB, G5, G6. destruct m; reflexivity. }
  rewrite R. apply unsliced_replace.
  assert (R2 : action m (G2 e) = (if trims_left m then $"{{-" else $"{{") ++ $" " ++ G2 e ++ $" " ++ (if trims_right m then $"-}}" else $"}}")) by (unfold action; destruct m; reflexivity).
  rewrite R2. apply unsliced_space; [|apply unsliced_space; [exact (g2_unsliced e OK)|]]; apply unsliced_no; destruct m; vm_compute; intuition discriminate.
Qed.
End Value.
