(** C115: where the policy graph is written, and what is there when it cannot be drawn *)
From Coq Require Import String Ascii List Bool Arith ZArith Lia.
From Verif Require Import Base SysInfo Token Rule Policy Graph GraphFile.
From Verif Require Props_Policy Props_Graph.
Import ListNotations.
Open Scope string_scope.
Open Scope list_scope.

Lemma each_log_ok {A B} (g : A -> res (list B)) (h : A -> list B * option exn) :
  (forall x, match h x with (l, None) => g x = Ok l | (_, Some e) => g x = Err e end) ->
  forall l, match each_log h l with (r, None) => each g l = Ok r | (_, Some e) => each g l = Err e end.
Proof.
  intros H l. induction l as [|x l IH]; [reflexivity|]. cbn [each_log each]. specialize (H x).
  destruct (h x) as [a [e|]]; [rewrite H; reflexivity|]. rewrite H. cbn [bind].
  destruct (each_log h l) as [b [e|]]; rewrite IH; reflexivity.
Qed.
(** the lines written are those of [graph_main] *)
Lemma graph_log_main i color a rules :
  match graph_log i color a rules with
  | (l, None) => graph_main i color a rules = Ok (("digraph g {" +++ nl) :: once [] l ++ ["}" +++ nl])
  | (_, Some e) => graph_main i color a rules = Err e
  end.
Proof.
  unfold graph_log, graph_main.
  match goal with |- match each_log ?h ?l with _ => _ end =>
    pose proof (each_log_ok (fun p => do skip <- skip_service a p;
      if skip : bool then Ok []
      else each (fun s => each (fun t => combination i color a rules p s t) (graph_targets i)) (graph_sources i a)) h) as K end.
  lapply K; clear K.
  - intros K. specialize (K (sort_by pair_leb (graph_services a rules))).
    destruct (each_log _ _) as [l [e|]]; rewrite K; reflexivity.
  - intros p. destruct (skip_service a p) as [[|]|e]; [reflexivity| |reflexivity]. cbn [bind].
    apply each_log_ok. intros s. apply each_log_ok. intros t. unfold logged. destruct (combination i color a rules p s t); reflexivity.
Qed.

(** ** What is asked for *)
(** the option is given, with the file [p] *)
Definition names_file (o : option string) (p : string) : Prop := o = Some p /\ p <> "".
Definition no_file (o : option string) : Prop := o = None \/ o = Some "".
Lemma given_some o p : given o = Some p <-> names_file o p.
Proof.
  unfold given, names_file. destruct o as [s|]; [|split; [discriminate|intros [E _]; discriminate]].
  destruct (String.eqb_spec s "") as [->|N]; (split; [intros E; split; congruence|intros [E N']; congruence]).
Qed.
Lemma given_none o : given o = None <-> no_file o.
Proof.
  unfold given, no_file. destruct o as [s|]; [|tauto]. destruct (String.eqb_spec s "") as [->|N]; [tauto|]. split; [discriminate|intros [E|E]; congruence].
Qed.
(** [f'] is [f] with the text [t] in the file [p] *)
Definition only_changed (f f' : files) (p t : string) : Prop := f' p = Some t /\ forall x, x <> p -> f' x = f x.
Lemma put_only f p t : only_changed f (put f p t) p t.
Proof. split; unfold put; [now rewrite String.eqb_refl|]. intros x N. destruct (String.eqb_spec x p); congruence. Qed.
Lemma put_put f p t t' x : put (put f p t) p t' x = put f p t' x.
Proof. unfold put. destruct (String.eqb x p); reflexivity. Qed.
(** the description of the system, from the file that was named, else from qubesd *)
Definition described (json : string -> option info) (qubesd : option info) (system_info : option string) (f : files) (i : info) : Prop :=
  (exists p t, names_file system_info p /\ f p = Some t /\ json t = Some i) \/ (no_file system_info /\ qubesd = Some i).
Lemma described_iff json qubesd s f i :
  match given s with Some p => match f p with Some t => json t | None => None end | None => qubesd end = Some i <-> described json qubesd s f i.
Proof.
  unfold described. destruct (given s) as [p|] eqn:G.
  - pose proof G as G'. apply given_some in G. split.
    + destruct (f p) as [t|] eqn:F; [|discriminate]. intros J. left. exists p, t. auto.
    + intros [(p' & t & N & F & J)|[N _]]; [|apply given_none in N; congruence]. apply given_some in N. assert (p' = p) by congruence. subst p'. rewrite F. exact J.
  - apply given_none in G. split; [intros E; right; auto|]. intros [(p & t & N & _)|[_ E]]; [|exact E]. apply given_some in N. apply given_none in G. congruence.
Qed.

(** ** The drawing *)
(** With a file named for the output: it ends with status 0 exactly if the file can be opened, there is a
    description of the system, the policy can be read (both with that file already empty), and the graph can
    be drawn; then the file holds the graph, nothing is on the standard output, and no other file is changed *)
Theorem C115_to_a_file w json qubesd load color ok a output o s f : names_file output o ->
  let r := graph_run w json qubesd load color ok a output s f in
  let f1 := put f o "" in
  (r_status r = 0%Z <-> ok = true /\ w o = true /\ exists i rules out, described json qubesd s f1 i /\ load f1 = Ok rules /\ graph_main i (color i) a rules = Ok out) /\
  (forall i rules out, ok = true -> w o = true -> described json qubesd s f1 i -> load f1 = Ok rules -> graph_main i (color i) a rules = Ok out ->
     r_status r = 0%Z /\ r_stdout r = "" /\ only_changed f (r_files r) o (String.concat "" out)).
Proof.
  intros No r f1. pose proof No as G. apply given_some in G.
  assert (P : forall i rules out, ok = true -> w o = true -> described json qubesd s f1 i -> load f1 = Ok rules -> graph_main i (color i) a rules = Ok out ->
     r_status r = 0%Z /\ r_stdout r = "" /\ only_changed f (r_files r) o (String.concat "" out)).
  { intros i rules out -> W D L M. apply described_iff in D. unfold r, graph_run. cbn [negb]. rewrite G, W. cbv iota. fold f1. rewrite D, L.
    pose proof (graph_log_main i (color i) a rules) as K. destruct (graph_log i (color i) a rules) as [l [e|]]; [congruence|].
    cbn [r_status r_stdout r_files]. split; [reflexivity|]. split; [reflexivity|].
    assert (out = ("digraph g {" +++ nl) :: once [] l ++ ["}" +++ nl]) by congruence. subst out.
    destruct (put_only f o (String.concat "" (("digraph g {" +++ nl) :: once [] l ++ ["}" +++ nl]))) as [A B].
    split; [unfold f1; rewrite put_put; exact A|]. intros x N. unfold f1. rewrite put_put. exact (B x N). }
  split; [|exact P]. split.
  - intros S. unfold r, graph_run in S. destruct ok; [|discriminate S]. cbn [negb] in S. rewrite G in S. destruct (w o) eqn:W; [|discriminate S]. fold f1 in S.
    split; [reflexivity|]. split; [reflexivity|].
    destruct (match given s with Some p => _ | None => _ end) as [i|] eqn:D in S; [|discriminate S]. destruct (load f1) as [rules|e] eqn:L; [|discriminate S].
    pose proof (graph_log_main i (color i) a rules) as K. destruct (graph_log i (color i) a rules) as [l [e|]]; [discriminate S|].
    apply described_iff in D. do 3 eexists. split; [exact D|]. split; [reflexivity|exact K].
  - intros (Ok' & W & i & rules & out & D & L & M). exact (proj1 (P i rules out Ok' W D L M)).
Qed.
(** Without one: the same with the standard output, and no file is changed, whatever happens *)
Theorem C115_to_stdout w json qubesd load color ok a output s f : no_file output ->
  let r := graph_run w json qubesd load color ok a output s f in
  r_files r = f /\
  (r_status r = 0%Z <-> ok = true /\ exists i rules out, described json qubesd s f i /\ load f = Ok rules /\ graph_main i (color i) a rules = Ok out) /\
  (forall i rules out, ok = true -> described json qubesd s f i -> load f = Ok rules -> graph_main i (color i) a rules = Ok out ->
     r_status r = 0%Z /\ r_stdout r = String.concat "" out).
Proof.
  intros No r. pose proof No as G. apply given_none in G.
  assert (P : forall i rules out, ok = true -> described json qubesd s f i -> load f = Ok rules -> graph_main i (color i) a rules = Ok out ->
     r_status r = 0%Z /\ r_stdout r = String.concat "" out).
  { intros i rules out -> D L M. apply described_iff in D. unfold r, graph_run. cbn [negb]. rewrite G, D, L.
    pose proof (graph_log_main i (color i) a rules) as K. destruct (graph_log i (color i) a rules) as [l [e|]]; [congruence|].
    cbn [r_status r_stdout]. split; [reflexivity|]. f_equal. congruence. }
  split; [|split; [split|exact P]].
  - unfold r, graph_run. destruct ok; [|reflexivity]. cbn [negb]. rewrite G. destruct (match given s with Some p => _ | None => _ end) as [i|]; [|reflexivity].
    destruct (load f) as [rules|e]; [|reflexivity]. destruct (graph_log i (color i) a rules) as [l e]. reflexivity.
  - intros S. unfold r, graph_run in S. destruct ok; [|discriminate S]. cbn [negb] in S. rewrite G in S. split; [reflexivity|].
    destruct (match given s with Some p => _ | None => _ end) as [i|] eqn:D in S; [|discriminate S]. destruct (load f) as [rules|e] eqn:L; [|discriminate S].
    pose proof (graph_log_main i (color i) a rules) as K. destruct (graph_log i (color i) a rules) as [l [e|]]; [discriminate S|].
    apply described_iff in D. do 3 eexists. split; [exact D|]. split; [reflexivity|exact K].
  - intros (Ok' & i & rules & out & D & L & M). exact (proj1 (P i rules out Ok' D L M)).
Qed.
(** Whatever happens: no file but the one that was named is changed; if an option is wrong, or the file cannot
    be opened, none is; and a run that fails later leaves there no more than the beginning of a drawing *)
Theorem C115_failure_partial w json qubesd load color ok a output s f :
  let r := graph_run w json qubesd load color ok a output s f in
  (forall p, ~ names_file output p -> r_files r p = f p) /\
  (ok = false -> r_status r = 2%Z /\ r_files r = f /\ r_stdout r = "") /\
  (forall o, ok = true -> names_file output o -> w o = false -> r_status r = 1%Z /\ r_files r = f /\ r_stdout r = "") /\
  (forall o, ok = true -> names_file output o -> w o = true -> r_status r <> 0%Z ->
     r_status r = 1%Z /\ r_stdout r = "" /\ (r_files r o = Some "" \/ exists more, r_files r o = Some ("digraph g {" +++ nl +++ more))).
Proof.
  intros r. unfold r, graph_run. destruct ok; cbn [negb].
  2:{ split; [reflexivity|]. split; [intros _; repeat split|]. split; discriminate. }
  destruct (given output) as [o|] eqn:G.
  - pose proof G as No. apply given_some in No.
    assert (U : forall o', names_file output o' -> o' = o) by (intros o' N; apply given_some in N; congruence).
    destruct (w o) eqn:W.
    2:{ split; [reflexivity|]. split; [discriminate|]. split; [intros o' _ N _; repeat split|]. intros o' _ N W'. rewrite (U _ N) in W'. congruence. }
    set (f1 := put f o "").
    assert (F1 : forall p, ~ names_file output p -> f1 p = f p) by (intros p N; apply put_only; intros ->; exact (N No)).
    assert (F1o : f1 o = Some "") by apply put_only.
    assert (Z1 : forall o', true = true -> names_file output o' -> w o' = false -> False) by (intros o' _ N W'; rewrite (U _ N) in W'; congruence).
    destruct (match given s with Some p => _ | None => _ end) as [i|].
    2:{ cbn [r_files r_stdout r_status]. split; [exact F1|]. split; [discriminate|]. split; [intros o' A N W'; destruct (Z1 o' A N W')|].
        intros o' _ N _ _. rewrite (U _ N). split; [reflexivity|]. split; [reflexivity|]. left. exact F1o. }
    destruct (load f1) as [rules|e].
    2:{ cbn [r_files r_stdout r_status]. split; [exact F1|]. split; [discriminate|]. split; [intros o' A N W'; destruct (Z1 o' A N W')|].
        intros o' _ N _ _. rewrite (U _ N). split; [reflexivity|]. split; [reflexivity|]. left. exact F1o. }
    destruct (graph_log i (color i) a rules) as [l e]. cbn [r_files r_stdout r_status].
    split; [intros p N; unfold f1; rewrite put_put; apply put_only; intros ->; exact (N No)|]. split; [discriminate|].
    split; [intros o' A N W'; destruct (Z1 o' A N W')|]. intros o' _ N _ S. rewrite (U _ N).
    split; [destruct e; [reflexivity|contradiction S; reflexivity]|]. split; [reflexivity|]. right.
    set (rest := once [] l ++ match e with None => ["}" +++ nl] | Some _ => [] end).
    exists (String.concat "" rest). rewrite (proj1 (put_only f1 o _)). f_equal. destruct rest as [|x rest]; [reflexivity|].
    cbn [String.concat]. reflexivity.
  - assert (U : forall o', ~ names_file output o') by (intros o' N; apply given_some in N; congruence).
    split; [|split; [discriminate|split; intros o' _ N; destruct (U _ N)]].
    intros p _. destruct (match given s with Some p => _ | None => _ end) as [i|]; [|reflexivity].
    destruct (load f) as [rules|e]; [|reflexivity]. destruct (graph_log i (color i) a rules) as [l e]. reflexivity.
Qed.

(** ** What was there before is lost *)
(** The file is emptied before anything is read: when there is no description of the system (or the policy
    cannot be read), the drawing that was there is gone *)
Theorem C115_old_drawing_refuted w json qubesd load color a output o s f : names_file output o -> w o = true ->
  (forall i, ~ described json qubesd s (put f o "") i) ->
  let r := graph_run w json qubesd load color true a output s f in r_status r = 1%Z /\ r_files r o = Some "".
Proof.
  intros No W D r. apply given_some in No. unfold r, graph_run. cbn [negb]. rewrite No, W.
  destruct (match given s with Some p => _ | None => _ end) as [i|] eqn:E; [apply described_iff in E; destruct (D i E)|].
  cbn [r_status r_files]. split; [reflexivity|]. apply put_only.
Qed.
(** and with one file for the description and for the drawing (an empty text is no JSON), it is the
    description that is lost, and never is there a drawing *)
Theorem C115_same_file_refuted w json qubesd load color a o f : o <> "" -> w o = true -> json "" = None ->
  let r := graph_run w json qubesd load color true a (Some o) (Some o) f in r_status r = 1%Z /\ r_files r o = Some "".
Proof.
  intros N W J. apply C115_old_drawing_refuted; [split; auto|exact W|].
  intros i [(p & t & [E _] & F & K)|[[E|E] _]]; [|discriminate E|congruence]. assert (p = o) by congruence. subst p.
  rewrite (proj1 (put_only f o "")) in F. congruence.
Qed.

Definition ex_files : files := fun p => if String.eqb p "/tmp/graph" then Some "old" else if String.eqb p "/tmp/info" then Some "{}" else None.
Definition ex_json (t : string) : option info := if String.eqb t "{}" then Some Props_Policy.ex_info else None.
Definition ex_load (f : files) : res (list rule) := Ok Props_Graph.ex_graph_rules.
Definition ex_run (output system_info : option string) : run :=
  graph_run (fun _ => true) ex_json None ex_load (fun _ => Props_Graph.ex_color) true (Props_Graph.opts true) output system_info ex_files.
Example C115_example :
  r_status (ex_run (Some "/tmp/graph") (Some "/tmp/info")) = 0%Z /\
  (exists t, r_files (ex_run (Some "/tmp/graph") (Some "/tmp/info")) "/tmp/graph" = Some ("digraph g {" +++ nl +++ t)) /\
  r_files (ex_run (Some "/tmp/graph") (Some "/tmp/info")) "/tmp/info" = Some "{}" /\
  r_status (ex_run None (Some "/tmp/info")) = 0%Z /\ r_files (ex_run None (Some "/tmp/info")) "/tmp/graph" = Some "old" /\
  r_status (ex_run (Some "/tmp/graph") None) = 1%Z /\ r_files (ex_run (Some "/tmp/graph") None) "/tmp/graph" = Some "" /\
  r_files (ex_run (Some "/tmp/info") (Some "/tmp/info")) "/tmp/info" = Some "".
Proof.
  split; [vm_compute; reflexivity|]. split; [eexists; vm_compute; reflexivity|]. repeat split; vm_compute; reflexivity.
Qed.
