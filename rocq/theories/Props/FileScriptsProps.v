(** Removing the header of a file. *)
From Coq Require Import Ascii String List Bool Lia.
From Verif Require Import Base.Py Model.FileScripts Spec.FileScriptsSpec Proofs.FileScriptsProofs.
Import ListNotations.

(** C360: from a text in lines, whatever its ends of line, clean_header writes to another file the lines that do not begin with the ignore character, in
    order, each ended by LF, and leaves every other file alone, the base file included. *)
Theorem clean_header_lines : forall fs base new ignore e ls last, (e = [LF] \/ e = [CR; LF] \/ e = [CR]) -> Forall plain ls -> plain last -> ignore <> [LF] ->
  fs base = Some (text_of e ls last) -> new_name base new <> base ->
  exists fs', clean_header fs base new ignore = Some fs'
    /\ fs' (new_name base new) = Some (text_of [LF] (filter (fun l => negb (begins l ignore)) ls) (if begins last ignore then [] else last))
    /\ forall p, p <> new_name base new -> fs' p = fs p.
Proof.
  intros fs base new ignore e ls last He F Hl Hi Hb Hn. unfold clean_header. cbv zeta. rewrite Hb. unfold write at 1. rewrite same_neq by auto. rewrite Hb. eexists. split; [reflexivity|]. split.
  - unfold write. rewrite same_refl. rewrite universal_text, lines_text, filter_lines; auto.
  - intros p Hp. unfold write. rewrite !same_neq by auto. reflexivity.
Qed.
Print Assumptions clean_header_lines.
(** Cleaning what was cleaned changes nothing more. *)
Theorem clean_header_again : forall fs base new ignore e ls last out fs1 fs2, (e = [LF] \/ e = [CR; LF] \/ e = [CR]) -> Forall plain ls -> plain last -> ignore <> [LF] ->
  fs base = Some (text_of e ls last) -> new <> base -> out <> new ->
  clean_header fs base (Some new) ignore = Some fs1 -> clean_header fs1 new (Some out) ignore = Some fs2 -> fs2 out = fs1 new.
Proof.
  intros fs base new ignore e ls last out fs1 fs2 He F Hl Hi Hb Hn Ho E1 E2. destruct (clean_header_lines fs base (Some new) ignore e ls last He F Hl Hi Hb Hn) as (fs1' & E1' & A & _). rewrite E1 in E1'. injection E1' as <-. cbn [new_name] in A.
  destruct (clean_header_lines fs1 new (Some out) ignore [LF] (filter (fun l => negb (begins l ignore)) ls) (if begins last ignore then [] else last)) as (fs2' & E2' & B & _).
  - now left.
  - apply Forall_forall. intros l Hin. apply filter_In in Hin as [Hin _]. rewrite Forall_forall in F. auto.
  - destruct (begins last ignore); auto. split; intros [].
  - exact Hi.
  - exact A.
  - exact Ho.
  - rewrite E2 in E2'. injection E2' as <-. cbn [new_name] in B. rewrite B, A. f_equal. f_equal.
    + clear. induction ls as [|l ls IH]; [reflexivity|]. cbn [filter]. destruct (begins l ignore) eqn:E; cbn [negb filter]; [auto|]. rewrite E. cbn [negb]. now rewrite IH.
    + destruct (begins last ignore) eqn:E; [|now rewrite E]. destruct (begins [] ignore); reflexivity.
Qed.
Print Assumptions clean_header_again.

(** C361, refuted: a file cleaned in place loses not its header but everything, whatever it holds and whatever the ignore character. *)
Theorem clean_in_place_refuted : forall fs base t ignore, fs base = Some t -> exists fs', clean_header fs base (Some base) ignore = Some fs' /\ fs' base = Some [].
Proof.
  intros fs base t ignore H. unfold clean_header. cbn [new_name]. cbv zeta. rewrite H. unfold write at 1. rewrite same_refl. eexists. split; [reflexivity|]. unfold write. now rewrite same_refl.
Qed.

(** C362: without a name for the new file, stem.type gives stem_no_header.type and a name without a dot gives stem_no_header. *)
Theorem no_header_name : forall stem type, ~ In "."%char stem -> ~ In "."%char type ->
  new_name (stem ++ txt "." ++ type) None = stem ++ txt "_no_header" ++ txt "." ++ type /\ new_name stem None = stem ++ txt "_no_header".
Proof.
  intros stem type Hs Ht. unfold new_name. change (txt "." ++ type) with ("."%char :: type). split.
  - rewrite split_first, (split_plain type) by auto. cbn [fst]. now rewrite <- !app_assoc.
  - now rewrite split_plain.
Qed.
(** Refuted for other names: everything after a second dot is dropped, so that different files are cleaned into the same one, and a path that starts
    with './' leads elsewhere. *)
Theorem no_header_name_refuted : (forall stem type rest, ~ In "."%char stem -> ~ In "."%char type -> new_name (stem ++ txt "." ++ type ++ txt "." ++ rest) None = new_name (stem ++ txt "." ++ type) None)
  /\ new_name (txt "data.2020.csv") None = txt "data_no_header.2020" /\ new_name (txt "./data.csv") None = txt "_no_header./data".
Proof.
  split; [|split; vm_compute; reflexivity]. intros stem type rest Hs Ht. unfold new_name. change (txt "." ++ type ++ txt "." ++ rest) with ("."%char :: (type ++ "."%char :: rest)). change (txt "." ++ type) with ("."%char :: type).
  rewrite !split_first by auto. rewrite (split_plain type) by auto. reflexivity.
Qed.
Print Assumptions no_header_name_refuted.
(** A header of two lines, one of them after the data, with CR LF *)
Example clean_example :
  let t := text_of [CR; LF] [txt "# header"; txt "1,2"; txt "#x"; txt ""] (txt "3,4") in
  let fs p := if same p (txt "d.csv") then Some t else None in
  (forallb (fun l => negb (existsb (Ascii.eqb LF) l || existsb (Ascii.eqb CR) l)) [txt "# header"; txt "1,2"; txt "#x"; txt ""; txt "3,4"] = true)
  /\ match clean_header fs (txt "d.csv") None (txt "#") with Some fs' => fs' (txt "d_no_header.csv") | None => None end = Some (txt "1,2" ++ [LF; LF] ++ txt "3,4").
Proof. split; vm_compute; reflexivity. Qed.
