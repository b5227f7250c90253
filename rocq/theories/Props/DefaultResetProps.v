(** The default reset of scikit-multiflow's objects (C351-C353). *)
From Coq Require Import List Bool String Ascii Arith Lia.
From Verif Require Import Model.DefaultReset Spec.DefaultResetSpec Proofs.DefaultResetProofs.
Import ListNotations.

(** C351: however the text is broken into lines, the constructor is called once, with the arguments that are kept; if some parameter shows an
    object, inf or nan there is a NameError and the constructor is not called *)
Theorem reset_calls_constructor (cls : text) (kvs : kwargs) (t : text) :
  is_name cls -> parameters kvs -> shown cls kvs t -> ~ occurs cls (skipn (List.length cls) (squeeze t)) ->
  (Forall (fun kv => usable (snd kv) = true) kvs -> reset cls t = ([map (fun kv => (fst kv, kept (snd kv))) kvs], Done)) /\
  (Exists (fun kv => usable (snd kv) = false) kvs -> reset cls t = ([], NameError)).
Proof.
  intros A B C D. rewrite (reset_is cls kvs t A B C D). split; intros H.
  - replace (forallb usable (map snd kvs)) with true; auto. symmetry. apply forallb_forall. intros v I. apply in_map_iff in I. destruct I as (kv & <- & I).
    rewrite Forall_forall in H. auto.
  - replace (forallb usable (map snd kvs)) with false; auto. symmetry. apply not_true_iff_false. rewrite forallb_forall. intros X.
    apply Exists_exists in H. destruct H as (kv & I & U). rewrite X in U; [discriminate|]. apply in_map; auto.
Qed.

(** C352: it is the object's own constructor call again exactly if nothing is lost of any parameter *)
Theorem reset_same_arguments (cls : text) (kvs : kwargs) (t : text) :
  is_name cls -> parameters kvs -> shown cls kvs t -> ~ occurs cls (skipn (List.length cls) (squeeze t)) ->
  (reset cls t = ([kvs], Done) <-> Forall (fun kv => intact (snd kv)) kvs).
Proof.
  intros A B C D. rewrite (reset_is cls kvs t A B C D). destruct B as [_ P].
  assert (K : Forall (fun kv => intact (snd kv)) kvs <-> forallb usable (map snd kvs) = true /\ map (fun kv => (fst kv, kept (snd kv))) kvs = kvs).
  { clear - P. induction P as [|[k v] kvs [_ Pv] P IH]; [cbn; split; auto|]. cbn [map forallb fst snd] in *. rewrite andb_true_iff.
    pose proof (intact_kept v Pv) as E. split.
    - intros F. inversion F as [|? ? Fx Fl]; subst. apply E in Fx. apply IH in Fl. destruct Fx, Fl. repeat split; auto. congruence.
    - intros [[X Y] Z]. injection Z as Z1 Z2. constructor; [apply E; auto|apply IH; auto]. }
  rewrite K. destruct (forallb usable (map snd kvs)); split; intros H.
  - injection H as H. auto.
  - destruct H as [_ H]. rewrite H. reflexivity.
  - discriminate.
  - destruct H; discriminate.
Qed.

(** C353: objects that the default reset does not give back *)
Definition none := PWord (txt "None").
Definition false_ := PWord (txt "False").
Definition file_stream (path : string) (cats : pv) : kwargs :=
  [(txt "allow_nan", false_); (txt "cat_features", cats); (txt "filepath", PStr (txt path)); (txt "n_targets", PWord (txt "1")); (txt "target_idx", PWord (txt "-1"))].
Definition prequential : kwargs :=
  [(txt "batch_size", PWord (txt "1")); (txt "data_points_for_classification", false_); (txt "max_samples", PWord (txt "100000"));
   (txt "max_time", PWord (txt "inf")); (txt "metrics", PList [PStr (txt "accuracy"); PStr (txt "kappa")]); (txt "n_wait", PWord (txt "200"));
   (txt "output_file", none); (txt "pretrain_size", PWord (txt "200")); (txt "restart_stream", PWord (txt "True")); (txt "show_plot", false_)].
Definition agrawal (f : string) : pv :=
  PObj (txt "AGRAWALGenerator") [(txt "balance_classes", false_); (txt "classification_function", PWord (txt f)); (txt "perturbation", PWord (txt "0.0")); (txt "random_state", PWord (txt "112"))].
Definition concept_drift : kwargs :=
  [(txt "alpha", none); (txt "drift_stream", agrawal "2"); (txt "position", PWord (txt "5000")); (txt "random_state", none); (txt "stream", agrawal "0"); (txt "width", PWord (txt "1000"))].
Definition show (cls : string) (kvs : kwargs) : text := repr (PObj (txt cls) kvs).
(** A path with a blank, a path with the name of the class, 31 nominal features, the default evaluator and the default drift stream *)
Theorem reset_restores_refuted :
  reset (txt "FileStream") (show "FileStream" (file_stream "my data.csv" none)) = ([file_stream "mydata.csv" none], Done) /\
  reset (txt "FileStream") (show "FileStream" (file_stream "FileStream.csv" none)) = ([file_stream "self.__init__.csv" none], Done) /\
  (let l := repeat (PWord (txt "7")) 31 in
   reset (txt "FileStream") (show "FileStream" (file_stream "a.csv" (PList l))) = ([file_stream "a.csv" (PList (firstn 30 l ++ [PWord (txt "...")]))], Done)) /\
  reset (txt "EvaluatePrequential") (show "EvaluatePrequential" prequential) = ([], NameError) /\
  reset (txt "ConceptDriftStream") (show "ConceptDriftStream" concept_drift) = ([], NameError).
Proof. repeat split; vm_compute; reflexivity. Qed.

(** The hypotheses are met: SEAGenerator with its text on two lines *)
Definition sea : kwargs :=
  [(txt "balance_classes", false_); (txt "classification_function", PWord (txt "2")); (txt "noise_percentage", PWord (txt "0.28")); (txt "random_state", PWord (txt "112"))].
Definition newline : string := String (ascii_of_nat 10) EmptyString.
Definition sea_text : text := txt ("SEAGenerator(balance_classes=False, classification_function=2," ++ newline ++ "             noise_percentage=0.28, random_state=112)")%string.
Fixpoint occursb (p t : text) : bool := match strip p t with Some _ => true | None => match t with [] => false | _ :: r => occursb p r end end.
Lemma occursb_no p t : occursb p t = false -> ~ occurs p t.
Proof.
  intros H (a & b & ->). revert H. induction a as [|c a IH]; cbn [List.app].
  - destruct p as [|c p]; [destruct b; discriminate|]. cbn [List.app occursb]. change (c :: p ++ b) with ((c :: p) ++ b). rewrite strip_app. discriminate.
  - cbn [occursb]. destruct (strip p (c :: a ++ p ++ b)); [discriminate|auto].
Qed.
Definition wordb (w : text) : bool := match w with [] => false | _ => forallb (fun c => negb (special c) && negb (blank c)) w end.
Lemma wordb_ok w : wordb w = true -> is_word w.
Proof.
  destruct w as [|c w]; [discriminate|]. unfold wordb. rewrite forallb_forall. intros H. split; [discriminate|]. apply Forall_forall. intros x I.
  apply H in I. apply andb_true_iff in I. destruct I as [A B]. apply negb_true_iff in A, B. auto.
Qed.
Example reset_applies : is_name (txt "SEAGenerator") /\ parameters sea /\ shown (txt "SEAGenerator") sea sea_text /\
  ~ occurs (txt "SEAGenerator") (skipn (List.length (txt "SEAGenerator")) (squeeze sea_text)) /\ Forall (fun kv => intact (snd kv)) sea /\ reset (txt "SEAGenerator") sea_text = ([sea], Done).
Proof.
  split; [split; [apply wordb_ok; vm_compute; reflexivity|intros H; simpl in H; intuition discriminate]|].
  split.
  { split; [apply Nat.leb_le; vm_compute; reflexivity|].
    unfold sea. repeat (apply Forall_cons; [split; [apply wordb_ok; vm_compute; reflexivity|split; [apply wordb_ok; vm_compute; reflexivity|discriminate]]|]). apply Forall_nil. }
  split; [split; [vm_compute; reflexivity|apply Nat.leb_le; vm_compute; reflexivity]|].
  split; [apply occursb_no; vm_compute; reflexivity|].
  split; [unfold sea; repeat (apply Forall_cons; [vm_compute; reflexivity|]); apply Forall_nil|]. vm_compute. reflexivity.
Qed.

Print Assumptions reset_calls_constructor.
Print Assumptions reset_same_arguments.
Print Assumptions reset_restores_refuted.
