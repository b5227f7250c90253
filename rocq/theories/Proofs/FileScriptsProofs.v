(** File scripts: lemmas. *)
From Coq Require Import Ascii String List Bool Lia.
From Verif Require Import Base.Py Model.FileScripts Spec.FileScriptsSpec.
Import ListNotations.

Lemma same_refl a : same a a = true. Proof. unfold same. destruct (list_eq_dec _ a a); congruence. Qed.
Lemma same_neq a b : a <> b -> same a b = false. Proof. unfold same. destruct (list_eq_dec _ a b); congruence. Qed.
Lemma universal_plain l r : ~ In CR l -> universal (l ++ r) = l ++ universal r.
Proof.
  induction l as [|c l IH]; intros H; [reflexivity|]. cbn [app universal]. destruct (Ascii.eqb_spec c CR) as [->|Ne]; [exfalso; apply H; now left|]. f_equal. apply IH. intros G. apply H. now right.
Qed.
Definition newline (e : text) : Prop := e = [LF] \/ e = [CR; LF] \/ e = [CR].
(** After a CR, what follows must not start with LF. *)
Lemma universal_end e r : newline e -> (e = [CR] -> match r with c :: _ => c <> LF | [] => True end) -> universal (e ++ r) = LF :: universal r.
Proof.
  intros [ -> | [ -> | -> ] ] H; [reflexivity|reflexivity|]. specialize (H eq_refl). destruct r as [|c r]; [reflexivity|]. cbn [app]. change (universal (CR :: c :: r)) with (LF :: (if Ascii.eqb c LF then universal r else universal (c :: r))).
  destruct (Ascii.eqb_spec c LF); [contradiction|reflexivity].
Qed.
Lemma text_head e ls last : newline e -> Forall plain ls -> plain last -> e = [CR] -> match text_of e ls last with c :: _ => c <> LF | [] => True end.
Proof.
  intros He F [Hl _] ->. unfold text_of. destruct F as [|l ls [P _] F]; cbn [map concat app].
  - destruct last as [|c last]; auto. intros ->. apply Hl. now left.
  - destruct l as [|c l]; cbn [app]; [discriminate|]. intros ->. apply P. now left.
Qed.
Lemma universal_text e ls last : newline e -> Forall plain ls -> plain last -> universal (text_of e ls last) = text_of [LF] ls last.
Proof.
  intros He F Hl. induction F as [|l ls [P1 P2] F IH].
  - unfold text_of. cbn [map concat app]. rewrite <- (app_nil_r last) at 1. rewrite universal_plain by apply Hl. cbn. apply app_nil_r.
  - unfold text_of in *. cbn [map concat]. rewrite <- !app_assoc. rewrite universal_plain by auto. rewrite universal_end; auto; [rewrite IH; reflexivity|]. intros E. exact (text_head e ls last He F Hl E).
Qed.
Lemma lines_cons l r : ~ In LF l -> lines (l ++ LF :: r) = (l ++ [LF]) :: lines r.
Proof.
  induction l as [|c l IH]; intros H; [reflexivity|]. cbn [app lines]. destruct (Ascii.eqb_spec c LF) as [->|Ne]; [exfalso; apply H; now left|]. rewrite IH by (intros G; apply H; now right). reflexivity.
Qed.
Lemma lines_last l : ~ In LF l -> lines l = match l with [] => [] | _ => [l] end.
Proof.
  induction l as [|c l IH]; intros H; [reflexivity|]. cbn [lines]. destruct (Ascii.eqb_spec c LF) as [->|Ne]; [exfalso; apply H; now left|]. rewrite IH by (intros G; apply H; now right). destruct l; reflexivity.
Qed.
Lemma lines_text ls last : Forall plain ls -> plain last -> lines (text_of [LF] ls last) = map (fun l => l ++ [LF]) ls ++ match last with [] => [] | _ => [last] end.
Proof.
  intros F [Hl _]. induction F as [|l ls [P _] F IH]; unfold text_of in *; cbn [map concat app]; [now apply lines_last|]. rewrite <- !app_assoc. cbn [app]. rewrite lines_cons by auto. now rewrite IH.
Qed.
Lemma ignored_begins ignore l : ignore <> [LF] -> ignored ignore (l ++ [LF]) = begins l ignore.
Proof.
  intros H. destruct l as [|c l]; cbn [app ignored begins]; [apply same_neq; congruence|]. unfold same. destruct (list_eq_dec ascii_dec [c] ignore) as [<-|Ne]; [now rewrite Ascii.eqb_refl|].
  destruct ignore as [|d [|? ?]]; auto. destruct (Ascii.eqb_spec c d); [congruence|reflexivity].
Qed.
Lemma ignored_last ignore l : ignored ignore l = begins l ignore.
Proof.
  destruct l as [|c l]; cbn [ignored begins]; [reflexivity|]. unfold same. destruct (list_eq_dec ascii_dec [c] ignore) as [<-|Ne]; [now rewrite Ascii.eqb_refl|].
  destruct ignore as [|d [|? ?]]; auto. destruct (Ascii.eqb_spec c d); [congruence|reflexivity].
Qed.
Lemma filter_lines ignore ls last : ignore <> [LF] ->
  concat (filter (fun l => negb (ignored ignore l)) (map (fun l => l ++ [LF]) ls ++ match last with [] => [] | _ => [last] end))
  = text_of [LF] (filter (fun l => negb (begins l ignore)) ls) (if begins last ignore then [] else last).
Proof.
  intros H. rewrite filter_app, concat_app. unfold text_of. f_equal.
  - induction ls as [|l ls IH]; cbn [map filter]; [reflexivity|]. rewrite ignored_begins by auto. destruct (begins l ignore); cbn [negb map concat]; now rewrite IH.
  - destruct last as [|c last]; [reflexivity|]. cbn [filter]. rewrite ignored_last. destruct (begins _ _); cbn; [reflexivity|]. now rewrite app_nil_r.
Qed.
Lemma split_plain s : ~ In "."%char s -> split_dot s = (s, []).
Proof.
  induction s as [|c s IH]; intros H; [reflexivity|]. cbn [split_dot]. rewrite IH by (intros G; apply H; now right). destruct (Ascii.eqb_spec c "."%char) as [->|]; [exfalso; apply H; now left|reflexivity].
Qed.
Lemma split_first s r : ~ In "."%char s -> split_dot (s ++ "."%char :: r) = (s, fst (split_dot r) :: snd (split_dot r)).
Proof.
  induction s as [|c s IH]; intros H.
  - cbn [app split_dot]. destruct (split_dot r). reflexivity.
  - cbn [app split_dot]. rewrite IH by (intros G; apply H; now right). destruct (Ascii.eqb_spec c "."%char) as [->|]; [exfalso; apply H; now left|reflexivity].
Qed.
