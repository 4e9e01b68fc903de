(** C106, C107, C108: local sockets *)
From Coq Require Import String Ascii List Bool Arith ZArith Lia.
From Verif Require Import Base Sanitize Exec UnixSocket SpecSocket AgentProofs.
From Verif Require Agent.
Import ListNotations.
Open Scope string_scope.
Open Scope list_scope.
Open Scope nat_scope.

Lemma set_same fs p x : set fs p x p = x.
Proof. unfold set. rewrite String.eqb_refl. reflexivity. Qed.
Lemma set_other fs p x q : q <> p -> set fs p x q = fs q.
Proof. intros N. unfold set. rewrite (proj2 (String.eqb_neq _ _) N). reflexivity. Qed.

(** ** Names *)
Lemma last_slash_None s : last_slash s = None <-> forall a b, s <> a +++ "/" +++ b.
Proof.
  induction s as [|c s IH].
  - split; [|reflexivity]. intros _ a b. destruct a; discriminate.
  - cbn [last_slash]. split.
    + intros H a b E. destruct (last_slash s) eqn:L; [discriminate|]. destruct (Ascii.eqb_spec c "/"); [discriminate|].
      destruct a as [|c' a]; [injection E; congruence|]. injection E as -> E. exact (proj1 IH eq_refl a b E).
    + intros H. destruct (last_slash s) eqn:L.
      * exfalso. assert (Some n = None) as [=]. apply IH. intros a b ->. exact (H (String c a) b eq_refl).
      * destruct (Ascii.eqb_spec c "/") as [->|]; [|reflexivity]. exfalso. exact (H "" s eq_refl).
Qed.
Lemma last_slash_Some d x : (forall a b, x <> a +++ "/" +++ b) -> last_slash (d +++ "/" +++ x) = Some (String.length d).
Proof.
  intros H. apply last_slash_None in H. induction d as [|c d IH].
  - change (last_slash (String "/" x) = Some 0). cbn [last_slash]. rewrite H. reflexivity.
  - change (last_slash (String c (d +++ "/" +++ x)) = Some (S (String.length d))). cbn [last_slash]. rewrite IH. reflexivity.
Qed.
Lemma last_slash_split s n : last_slash s = Some n -> exists d x, s = d +++ "/" +++ x /\ String.length d = n /\ forall a b, x <> a +++ "/" +++ b.
Proof.
  revert n. induction s as [|c s IH]; intros n H; [discriminate|]. cbn [last_slash] in H. destruct (last_slash s) as [m|] eqn:L.
  - injection H as <-. destruct (IH m eq_refl) as (d & x & -> & Ld & Nx). exists (String c d), x. split; [reflexivity|]. split; [cbn [String.length]; lia|exact Nx].
  - destruct (Ascii.eqb_spec c "/") as [->|]; [|discriminate]. injection H as <-. exists "", s. split; [reflexivity|]. split; [reflexivity|]. apply last_slash_None. exact L.
Qed.
Lemma dir_of_split d x : (forall a b, x <> a +++ "/" +++ b) -> dir_of (d +++ "/" +++ x) = d +++ "/".
Proof.
  intros H. unfold dir_of. rewrite last_slash_Some by exact H. rewrite <- app_assoc_s. apply stake_app_eq. rewrite length_app_s. cbn [String.length]. lia.
Qed.
Lemma leads_step fs p to k n : fs p = Some (Link to) -> leads fs k (if starts "/" to then to else dir_of p +++ to) n -> leads fs (S k) p n.
Proof.
  intros E H. destruct (starts "/" to) eqn:St.
  - apply starts_spec in St as (r & ->). exact (leads_link fs p r k n E H).
  - destruct (last_slash p) as [m|] eqn:L.
    + destruct (last_slash_split p m L) as (d & x & -> & _ & Nx). rewrite dir_of_split in H by exact Nx. rewrite app_assoc_s in H. eapply leads_beside; eassumption.
    + unfold dir_of in H. rewrite L in H. eapply leads_plain; [exact E| |exact St|exact H]. apply last_slash_None. exact L.
Qed.
Lemma leads_inv fs k p n : leads fs k p n ->
  (k = 0 /\ fs p = Some (Socket n)) \/
  exists to k', k = S k' /\ fs p = Some (Link to) /\ leads fs k' (if starts "/" to then to else dir_of p +++ to) n.
Proof.
  intros H. destruct H as [p n E|p to k n E H|d x to k n E Nx St H|x to k n E Nx St H].
  - left. auto.
  - right. exists ("/" +++ to), k. split; [reflexivity|]. split; [exact E|]. rewrite (proj2 (starts_spec "/" ("/" +++ to)) (ex_intro _ to eq_refl)). exact H.
  - right. exists to, k. split; [reflexivity|]. split; [exact E|]. rewrite St, dir_of_split by exact Nx. rewrite app_assoc_s. exact H.
  - right. exists to, k. split; [reflexivity|]. split; [exact E|]. rewrite St. unfold dir_of. rewrite (proj2 (last_slash_None x)) by exact Nx. exact H.
Qed.
Lemma reaches_leads fs : forall fuel p n, reaches fuel fs p = Some n <-> exists k, k <= fuel /\ leads fs k p n.
Proof.
  induction fuel as [|fuel IH]; intros p n; cbn [reaches].
  - destruct (fs p) as [[m|to| |]|] eqn:E; split; try discriminate.
    + intros [= ->]. exists 0. split; [lia|]. constructor. exact E.
    + intros (k & _ & H). apply leads_inv in H as [(_ & H)|(to & k' & _ & H & _)]; [congruence|congruence].
    + intros (k & K & H). apply leads_inv in H as [(_ & H)|(to' & k' & -> & _)]; [congruence|lia].
    + intros (k & _ & H). apply leads_inv in H as [(_ & H)|(to' & k' & _ & H & _)]; congruence.
    + intros (k & _ & H). apply leads_inv in H as [(_ & H)|(to' & k' & _ & H & _)]; congruence.
    + intros (k & _ & H). apply leads_inv in H as [(_ & H)|(to' & k' & _ & H & _)]; congruence.
  - destruct (fs p) as [[m|to| |]|] eqn:E.
    + split.
      * intros [= ->]. exists 0. split; [lia|]. constructor. exact E.
      * intros (k & _ & H). apply leads_inv in H as [(_ & H)|(to & k' & _ & H & _)]; congruence.
    + rewrite IH. split.
      * intros (k & K & H). exists (S k). split; [lia|]. eapply leads_step; [exact E|exact H].
      * intros (k & K & H). apply leads_inv in H as [(_ & H)|(to' & k' & -> & H & G)]; [congruence|]. assert (to' = to) by congruence. subst to'. exists k'. split; [lia|exact G].
    + split; [discriminate|]. intros (k & _ & H). apply leads_inv in H as [(_ & H)|(to' & k' & _ & H & _)]; congruence.
    + split; [discriminate|]. intros (k & _ & H). apply leads_inv in H as [(_ & H)|(to' & k' & _ & H & _)]; congruence.
    + split; [discriminate|]. intros (k & _ & H). apply leads_inv in H as [(_ & H)|(to' & k' & _ & H & _)]; congruence.
Qed.

(** ** C106: services with a socket *)
Definition sock : string := "qrexec-socket".
Lemma with_link fs d path : new_dir fs d -> starts "/" path = true ->
  let fs2 := set (set fs d (Some Dir)) (d +++ "/" +++ sock) (Some (Link path)) in
  (forall k p n, leads fs2 k p n -> (exists k', k' <= k /\ leads fs k' p n) \/ (exists k', k' < k /\ leads fs k' path n)) /\
  (forall k p n, leads fs k p n -> leads fs2 k p n).
Proof.
  intros [Nd Nx] St fs2. assert (Dl : d +++ "/" +++ sock <> d).
  { intros E. apply (f_equal String.length) in E. rewrite !length_app_s in E. cbn in E. lia. }
  assert (Old : forall p, fs p <> None -> fs2 p = fs p).
  { intros p Hp. unfold fs2. rewrite set_other by (intros ->; apply Hp, Nx). apply set_other. intros ->. exact (Hp Nd). }
  split.
  - induction k as [k IH] using lt_wf_ind. intros p n H. apply leads_inv in H as [(-> & H)|(to & k' & -> & H & G)].
    + left. exists 0. split; [lia|]. constructor. unfold fs2 in H. destruct (String.string_dec p (d +++ "/" +++ sock)) as [->|N1]; [rewrite set_same in H; discriminate|].
      rewrite set_other in H by exact N1. destruct (String.string_dec p d) as [->|N2]; [rewrite set_same in H; discriminate|]. rewrite set_other in H by exact N2. exact H.
    + destruct (String.string_dec p (d +++ "/" +++ sock)) as [->|N1].
      * unfold fs2 in H. rewrite set_same in H. assert (to = path) by congruence. subst to. rewrite St in G.
        destruct (IH k' (Nat.lt_succ_diag_r k') path n G) as [(j & J & K)|(j & J & K)]; right; exists j; (split; [lia|exact K]).
      * unfold fs2 in H. rewrite set_other in H by exact N1. destruct (String.string_dec p d) as [->|N2]; [rewrite set_same in H; discriminate|]. rewrite set_other in H by exact N2.
        destruct (IH k' (Nat.lt_succ_diag_r k') _ n G) as [(j & J & K)|(j & J & K)].
        -- left. exists (S j). split; [lia|]. eapply leads_step; [exact H|exact K].
        -- right. exists j. split; [lia|exact K].
  - induction k as [|k IH]; intros p n H; apply leads_inv in H as [(E & H)|(to & k' & E & H & G)]; try discriminate.
    + constructor. rewrite Old by congruence. exact H.
    + injection E as <-. eapply leads_step; [rewrite Old by congruence; exact H|]. apply IH. exact G.
Qed.
Lemma loop_true errors answer n : connect_loop errors answer = Some n -> answer = Some n.
Proof. induction errors as [|[|] errors IH]; cbn [connect_loop]; [auto|exact IH|discriminate]. Qed.
Lemma loop_again errors answer : Forall (fun e => e = true) errors -> connect_loop errors answer = answer.
Proof. induction 1 as [|e errors -> _ IH]; [reflexivity|exact IH]. Qed.

(** If a connection is made, it is to the server that listens under the name of the service *)
Theorem C106_right_server t fs path n l : starts "/" path = true -> (forall d, t_tmp t = Some d -> new_dir fs d) ->
  qubes_connect t fs path = (Some n, l) -> exists k, leads fs k path n.
Proof.
  intros St Nd. unfold qubes_connect. destruct (SUN_PATH <=? String.length path) eqn:Ln.
  - destruct (t_tmp t) as [d|] eqn:T; [|discriminate]. destruct (t_symlink t); [|discriminate]. specialize (Nd d eq_refl). intros H.
    apply (f_equal fst) in H. cbn [fst] in H. apply loop_true, reaches_leads in H as (k & _ & H). apply leads_inv in H as [(_ & H)|(to & k' & -> & H & G)].
    + change (d +++ "/qrexec-socket") with (d +++ "/" +++ sock) in H. rewrite set_same in H. discriminate.
    + change (d +++ "/qrexec-socket") with (d +++ "/" +++ sock) in *. rewrite set_same in H. assert (to = path) by congruence. subst to. rewrite St in G.
      destruct (with_link fs d path Nd St) as [W _]. destruct (W _ _ _ G) as [(j & _ & K)|(j & _ & K)]; eauto.
  - intros H. apply (f_equal fst) in H. cbn [fst] in H. apply loop_true, reaches_leads in H as (k & _ & H). eauto.
Qed.
(** and it is made, however long the name, if the system does its part *)
Theorem C106_connects t fs path k n d : starts "/" path = true -> t_tmp t = Some d -> new_dir fs d -> t_symlink t = true ->
  Forall (fun e => e = true) (t_errors t) -> leads fs k path n -> k < MAX_LINKS -> fst (qubes_connect t fs path) = Some n.
Proof.
  intros St T Nd Sy Er H K. unfold qubes_connect. destruct (SUN_PATH <=? String.length path).
  - rewrite T, Sy. cbn [fst]. rewrite loop_again by exact Er. apply reaches_leads. exists (S k). split; [lia|].
    destruct (with_link fs d path Nd St) as [_ W]. eapply leads_step; [change (d +++ "/qrexec-socket") with (d +++ "/" +++ sock); apply set_same|]. rewrite St. apply W. exact H.
  - cbn [fst]. rewrite loop_again by exact Er. apply reaches_leads. exists k. split; [lia|exact H].
Qed.
(** a short name needs no help *)
Theorem C106_short t fs path k n : String.length path < 108 -> Forall (fun e => e = true) (t_errors t) -> leads fs k path n -> k <= MAX_LINKS ->
  qubes_connect t fs path = (Some n, [fs]).
Proof.
  intros L Er H K. unfold qubes_connect, SUN_PATH. destruct (Nat.leb_spec 108 (String.length path)); [lia|]. rewrite loop_again by exact Er. f_equal. apply reaches_leads. eauto.
Qed.
(** At no time is anything else touched, and in the end everything is as before *)
Theorem C106_clean t fs path : (forall d, t_tmp t = Some d -> new_dir fs d) ->
  (forall d, t_tmp t = Some d -> Forall (same_but d fs) (snd (qubes_connect t fs path))) /\
  (t_tmp t = None -> snd (qubes_connect t fs path) = [fs]) /\
  forall p, last (snd (qubes_connect t fs path)) fs p = fs p.
Proof.
  intros Nd. unfold qubes_connect. destruct (SUN_PATH <=? String.length path).
  - destruct (t_tmp t) as [d|] eqn:T.
    + specialize (Nd d eq_refl). change (d +++ "/qrexec-socket") with (d +++ "/" +++ sock). set (link := d +++ "/" +++ sock).
      assert (S1 : forall x fs', same_but d fs fs' -> same_but d fs (set fs' d x)) by (intros x fs' S p N1 N2; rewrite set_other by exact N1; apply S; assumption).
      assert (S2 : forall x fs', same_but d fs fs' -> same_but d fs (set fs' link x)) by (intros x fs' S p N1 N2; rewrite set_other by (apply N2); apply S; assumption).
      assert (S0 : same_but d fs fs) by (intros p _ _; reflexivity).
      split; [|split; [discriminate|]].
      * intros d' [= <-]. destruct (t_symlink t); cbn [snd]; repeat constructor; auto 8.
      * intros p. destruct Nd as [Nd Nx]. destruct (String.string_dec p d) as [->|N1].
        -- destruct (t_symlink t); cbn [snd last]; rewrite set_same; symmetry; exact Nd.
        -- destruct (String.string_dec p link) as [->|N2].
           ++ destruct (t_symlink t); cbn [snd last]; rewrite set_other by exact N1; rewrite set_same; symmetry; apply Nx.
           ++ destruct (t_symlink t); cbn [snd last]; rewrite !set_other by assumption; reflexivity.
    + split; [discriminate|]. split; reflexivity.
  - split; [|split; reflexivity]. intros d _. repeat constructor.
Qed.
(** A long relative name (QREXEC_SERVICE_PATH can have such entries) is never reached *)
Theorem C106_relative_refuted t fs path : starts "/" path = false -> 108 <= String.length path -> (forall d, t_tmp t = Some d -> new_dir fs d) ->
  fst (qubes_connect t fs path) = None.
Proof.
  intros St L Nd. unfold qubes_connect, SUN_PATH. rewrite (proj2 (Nat.leb_le _ _) L). destruct (t_tmp t) as [d|]; [|reflexivity]. destruct (t_symlink t); [|reflexivity]. cbn [fst].
  specialize (Nd d eq_refl) as [N1 N2]. change (d +++ "/qrexec-socket") with (d +++ "/" +++ sock).
  destruct (connect_loop _ _) as [n|] eqn:E; [|reflexivity]. exfalso. apply loop_true in E. unfold MAX_LINKS in E. cbn [reaches] in E. rewrite set_same, St in E.
  assert (Ns : forall a b, sock <> a +++ "/" +++ b) by (apply last_slash_None; reflexivity). rewrite dir_of_split in E by exact Ns. rewrite app_assoc_s in E.
  assert (D1 : d +++ "/" +++ path <> d +++ "/" +++ sock).
  { intros Q. apply (f_equal String.length) in Q. rewrite !length_app_s in Q. change (String.length sock) with 13 in Q. change (String.length "/") with 1 in Q. lia. }
  assert (D2 : d +++ "/" +++ path <> d).
  { intros Q. apply (f_equal String.length) in Q. rewrite !length_app_s in Q. change (String.length "/") with 1 in Q. lia. }
  rewrite set_other in E by exact D1. rewrite set_other in E by exact D2. rewrite N2 in E. discriminate.
Qed.
(** a name of 120 bytes *)
Definition long_name : string := "/usr/local/etc/qubes-rpc/" +++ "my.Service+012345678901234567890123456789012345678901234567890123456789012345678901234567890123".
Definition ex_names : names := fun p => if String.eqb p long_name then Some (Socket 7) else if String.eqb p "/etc/qubes-rpc/my.Other" then Some (Link "my.Third") else
  if String.eqb p "/etc/qubes-rpc/my.Third" then Some (Socket 8) else None.
Example ex_C106 : String.length long_name = 120 /\
  fst (qubes_connect (mkAttempt (Some "/tmp/qrexec-a1b2c3") true [true; true]) ex_names long_name) = Some 7 /\
  fst (qubes_connect (mkAttempt (Some "/tmp/qrexec-a1b2c3") true []) ex_names "/etc/qubes-rpc/my.Other") = Some 8.
Proof. repeat split; vm_compute; reflexivity. Qed.
Lemma ex_C106_new : new_dir ex_names "/tmp/qrexec-a1b2c3".
Proof. split; [reflexivity|]. intros x. reflexivity. Qed.

(** ** C107: servers *)
Lemma stake_short m s : String.length s <= m -> stake m s = s.
Proof.
  revert m. induction s as [|c s IH]; intros m L; [destruct m; reflexivity|]. destruct m as [|m]; cbn [String.length] in L; [lia|]. cbn [stake]. rewrite IH by lia. reflexivity.
Qed.
Lemma unlink_other fs p q : q <> p -> unlink fs p q = fs q.
Proof. intros N. unfold unlink. destruct (fs p) as [[]|]; try (apply set_other; exact N). reflexivity. Qed.
Lemma unlink_same fs p : unlink fs p p = match fs p with Some Dir => Some Dir | _ => None end.
Proof. unfold unlink. destruct (fs p) as [[]|] eqn:E; try apply set_same. exact E. Qed.
(** A server that is started is found under its name, whatever was there before (unless it is a
    directory), and all other names are as before. Names of at most 107 bytes. *)
Theorem C107_serves_partial fs n path : String.length path <= 107 -> fs path <> Some Dir ->
  exists fs', get_server_socket true fs n path = Some fs' /\ leads fs' 0 path n /\ forall p, p <> path -> fs' p = fs p.
Proof.
  intros L D. unfold get_server_socket, SUN_PATH. rewrite stake_short by exact L. rewrite unlink_same. destruct (fs path) as [[m|to| |]|] eqn:E; try congruence;
    (eexists; split; [reflexivity|]; split; [constructor; apply set_same|intros p Np; rewrite set_other by exact Np; apply unlink_other; exact Np]).
Qed.
(** if it is not started, no other name has changed *)
Theorem C107_only_its_name ok fs n path fs' p : get_server_socket ok fs n path = Some fs' -> fs' p <> fs p -> p = path \/ (107 < String.length path /\ p = stake 107 path).
Proof.
  intros H N. destruct (String.string_dec p path) as [|Np]; [left; assumption|]. unfold get_server_socket in H. destruct (unlink fs path (stake (SUN_PATH - 1) path)); [discriminate|]. destruct ok; [|discriminate].
  assert (fs' = set (unlink fs path) (stake (SUN_PATH - 1) path) (Some (Socket n))) by congruence. subst fs'. destruct (String.string_dec p (stake (SUN_PATH - 1) path)) as [E|E].
  - right. change (SUN_PATH - 1) with 107 in E. split; [|exact E]. destruct (Nat.lt_ge_cases 107 (String.length path)) as [|G]; [assumption|]. rewrite stake_short in E by exact G. contradiction.
  - rewrite set_other, unlink_other in N by assumption. contradiction.
Qed.
(** A longer name is cut: the server is not found under it, and cannot be started again, because
    what is removed is not what is in the way *)
Theorem C107_long_refuted fs n path : 107 < String.length path -> fs path = None -> fs (stake 107 path) = None ->
  exists fs', get_server_socket true fs n path = Some fs' /\ fs' path = None /\ leads fs' 0 (stake 107 path) n /\
    forall m, get_server_socket true fs' m path = None.
Proof.
  intros L E1 E2. assert (N : stake 107 path <> path).
  { intros Q. apply (f_equal String.length) in Q. rewrite stake_exact in Q by lia. lia. }
  unfold get_server_socket. change (SUN_PATH - 1) with 107. rewrite unlink_other by exact N. rewrite E2. eexists. split; [reflexivity|].
  assert (A : set (unlink fs path) (stake 107 path) (Some (Socket n)) path = None) by (rewrite set_other by congruence; rewrite unlink_same, E1; reflexivity).
  split; [exact A|]. split; [constructor; apply set_same|]. intros m. rewrite unlink_other by exact N. rewrite set_same. reflexivity.
Qed.
(** The address used by qrexec-client-vm is the one it was given, up to 106 bytes; at 107 it
    depends on a byte that was never written *)
Theorem C107_trigger garbage path : String.length path <= 106 -> trigger_address garbage path = Some path.
Proof.
  intros L. unfold trigger_address, SUN_PATH. destruct (Nat.ltb_spec (String.length path) (108 - 1)); [|lia]. destruct (Nat.ltb_spec 108 (String.length path)); [lia|reflexivity].
Qed.
Theorem C107_trigger_refuted path : String.length path = 107 ->
  trigger_address (str1 NUL) path = Some path /\ trigger_address ("x" +++ str1 NUL) path = Some (path +++ "x") /\ trigger_address ("xy" +++ str1 NUL) path = None.
Proof.
  intros L. assert (S : stake (SUN_PATH - 1) path = path) by (apply stake_short; unfold SUN_PATH; lia).
  unfold trigger_address. rewrite S. change (SUN_PATH - 1) with 107. rewrite L. change (107 <? 107) with false. cbv iota.
  change (cstr (str1 NUL)) with "". change (cstr ("x" +++ str1 NUL)) with "x". change (cstr ("xy" +++ str1 NUL)) with "xy".
  rewrite app_nil_s. rewrite !length_app_s, L. cbn. auto.
Qed.

(** *** Fork servers *)
Lemma path_short u : String.length u <= 73 -> String.length (fork_server_path u) <= 107.
Proof. intros L. unfold fork_server_path. rewrite !length_app_s. change (String.length "/var/run/qubes/qrexec-server.") with 29. change (String.length ".sock") with 5. lia. Qed.
Lemma address_short u : String.length u <= 73 -> fork_server_address u = fork_server_path u.
Proof. intros L. apply stake_short. apply path_short. exact L. Qed.
Lemma app_inj_r_s a b c : a +++ c = b +++ c -> a = b.
Proof.
  revert b. induction a as [|x a IH]; intros b H.
  - destruct b as [|y b]; [reflexivity|]. apply (f_equal String.length) in H. rewrite !length_app_s in H. cbn [String.length] in H. lia.
  - destruct b as [|y b]; [apply (f_equal String.length) in H; rewrite !length_app_s in H; cbn [String.length] in H; lia|]. injection H as -> H. f_equal. apply IH. exact H.
Qed.
Lemma path_inj u v : fork_server_path u = fork_server_path v -> u = v.
Proof.
  unfold fork_server_path. intros H. apply (app_inj_r_s _ _ ".sock"). remember "/var/run/qubes/qrexec-server." as p eqn:Hp. clear Hp.
  induction p as [|c p IH]; [exact H|]. injection H as H. apply IH. exact H.
Qed.
Lemma step_other fs e u : String.length (who e) <= 73 -> who e <> u -> step fs e (fork_server_path u) = fs (fork_server_path u).
Proof.
  intros L N. assert (P : fork_server_path u <> fork_server_path (who e)) by (intros Q; apply path_inj in Q; congruence).
  destruct e as [ok n v|v]; cbn [who step] in *; [|apply unlink_other; exact P].
  unfold get_server_socket. fold (fork_server_address v). rewrite address_short by exact L. destruct (unlink fs (fork_server_path v) (fork_server_path v)); [apply unlink_other; exact P|]. destruct ok; [rewrite set_other by exact P|]; apply unlink_other; exact P.
Qed.
Lemma after_nodir es : forall fs, Forall (fun e => String.length (who e) <= 73) es -> (forall u, fs (fork_server_path u) <> Some Dir /\ forall to, fs (fork_server_path u) <> Some (Link to)) ->
  forall u, after fs es (fork_server_path u) <> Some Dir /\ forall to, after fs es (fork_server_path u) <> Some (Link to).
Proof.
  unfold after. induction es as [|e es IH]; intros fs F H; [exact H|]. inversion F as [|? ? L F']; subst. cbn [fold_left]. apply IH; [exact F'|]. intros u.
  destruct (String.string_dec (who e) u) as [<-|N]; [|rewrite step_other by assumption; apply H].
  destruct (H (who e)) as [H1 H2]. destruct e as [ok n v|v]; cbn [who step] in *.
  - unfold get_server_socket. fold (fork_server_address v). rewrite address_short by exact L. rewrite unlink_same. destruct (fs (fork_server_path v)) as [[m|to| |]|] eqn:E; try congruence;
      (destruct ok; [rewrite set_same; split; [discriminate|intros; discriminate]|rewrite unlink_same, E; split; [discriminate|intros; discriminate]]).
  - rewrite unlink_same. destruct (fs (fork_server_path v)) as [[m|to| |]|] eqn:E; try congruence; split; discriminate || (intros; discriminate).
Qed.
(** A command for a user goes to the server that this user has started last; for all histories
    in which the users have names of at most 73 bytes *)
Theorem C107_fork_server_partial es fs u n : Forall (fun e => String.length (who e) <= 73) es -> String.length u <= 73 ->
  (forall v, fs (fork_server_path v) = None) ->
  ((exists k, leads (after fs es) k (fork_server_address u) n) <-> started_last es u n).
Proof.
  intros F L Z. rewrite address_short by exact L.
  assert (K : forall k, leads (after fs es) k (fork_server_path u) n <-> k = 0 /\ after fs es (fork_server_path u) = Some (Socket n)).
  { intros k. split; [|intros [-> H]; constructor; exact H]. intros H. apply leads_inv in H as [H|(to & k' & _ & H & _)]; [exact H|].
    exfalso. assert (Q : forall v, fs (fork_server_path v) <> Some Dir /\ forall to, fs (fork_server_path v) <> Some (Link to)) by (intros v; rewrite Z; split; [discriminate|intros; discriminate]).
    exact (proj2 (after_nodir es fs F Q u) to H). }
  assert (G : after fs es (fork_server_path u) = Some (Socket n) <-> started_last es u n).
  { clear K. induction es as [|e es IH] using rev_ind.
    - unfold after. cbn [fold_left]. rewrite Z. split; [discriminate|]. intros (a & b & H & _). destruct a; discriminate.
    - apply Forall_app in F as [F Fe]. inversion Fe as [|? ? Le _]; subst. specialize (IH F).
      assert (E : after fs (es ++ [e]) = step (after fs es) e) by (unfold after; rewrite fold_left_app; reflexivity). rewrite E.
      destruct (String.string_dec (who e) u) as [W|W].
      + assert (Nd : after fs es (fork_server_path u) <> Some Dir).
        { apply (after_nodir es fs F). intros v. rewrite Z. split; [discriminate|intros; discriminate]. }
        split.
        * intros H. destruct e as [ok m v|v]; cbn [who] in W; subst v; cbn [step] in H.
          -- unfold get_server_socket in H. fold (fork_server_address u) in H. rewrite address_short in H by exact L.
             destruct (unlink (after fs es) (fork_server_path u) (fork_server_path u)) as [x|] eqn:U; [rewrite unlink_same in U; destruct (after fs es (fork_server_path u)) as [[]|]; congruence|].
             destruct ok; [|congruence]. rewrite set_same in H. assert (m = n) by congruence. subst m. exists es, []. split; [reflexivity|]. intros e [].
          -- rewrite unlink_same in H. destruct (after fs es (fork_server_path u)) as [[]|]; discriminate.
        * intros (a & b & H & Nb). destruct (rev b) as [|e' b'] eqn:R.
          -- assert (b = []) by (rewrite <- (rev_involutive b), R; reflexivity). subst b. apply app_inj_tail in H as [-> ->]. cbn [step].
             unfold get_server_socket. fold (fork_server_address u). rewrite address_short by exact L. rewrite unlink_same. destruct (after fs a (fork_server_path u)) as [[]|]; try congruence; apply set_same.
          -- exfalso. assert (b = rev b' ++ [e']) by (rewrite <- (rev_involutive b), R; reflexivity). subst b. rewrite app_comm_cons, app_assoc in H. apply app_inj_tail in H as [_ ->].
             apply (Nb e'); [apply in_or_app; right; left; reflexivity|exact W].
      + rewrite step_other by assumption. rewrite IH. split.
        * intros (a & b & -> & Nb). exists a, (b ++ [e]). split; [rewrite <- app_assoc; reflexivity|]. intros e' He. apply in_app_or in He as [He|[<-|[]]]; auto.
        * intros (a & b & H & Nb). destruct (rev b) as [|e' b'] eqn:R.
          -- assert (b = []) by (rewrite <- (rev_involutive b), R; reflexivity). subst b. apply app_inj_tail in H as [-> ->]. cbn [who] in W. congruence.
          -- assert (b = rev b' ++ [e']) by (rewrite <- (rev_involutive b), R; reflexivity). subst b. rewrite app_comm_cons, app_assoc in H. apply app_inj_tail in H as [-> ->].
             exists a, (rev b'). split; [reflexivity|]. intros e'' He. apply Nb. apply in_or_app. left. exact He. }
  rewrite <- G. split; [intros (k & H); apply K in H; tauto|]. intros H. exists 0. apply K. auto.
Qed.
Fixpoint repeat_a (n : nat) : string := match n with O => "" | S m => String "a" (repeat_a m) end.
(** Two users whose names have the same first 78 bytes share a server: the command for the one is
    run by the other *)
Theorem C107_long_users_refuted : exists u v, u <> v /\ exists k, leads (after (fun _ => None) [Starts true 1 u]) k (fork_server_address v) 1.
Proof.
  exists (repeat_a 78 +++ "x"), (repeat_a 78 +++ "y"). split; [vm_compute; discriminate|]. exists 0. constructor. vm_compute. reflexivity.
Qed.
(** A server that ends takes the socket of its successor with it *)
Theorem C107_successor_refuted u : String.length u <= 73 -> forall k n, ~ leads (after (fun _ => None) [Starts true 1 u; Starts true 2 u; Ends u]) k (fork_server_address u) n.
Proof.
  intros L k n H. assert (S : started_last [Starts true 1 u; Starts true 2 u; Ends u] u n).
  { apply (proj1 (C107_fork_server_partial _ (fun _ => None) u n (Forall_cons (Starts true 1 u) L (Forall_cons (Starts true 2 u) L (Forall_cons (Ends u) L (Forall_nil _)))) L (fun v => eq_refl))). eauto. }
  destruct S as (a & b & E & N). destruct a as [|e1 [|e2 [|e3 [|e4 a]]]]; try discriminate.
  - injection E as <- <-. apply (N (Ends u)); [right; left; reflexivity|reflexivity].
  - injection E as _ <- <-. apply (N (Ends u)); [left; reflexivity|reflexivity].
Qed.
Example ex_C107 : exists k, leads (after (fun _ => None) [Starts true 1 "user"; Starts true 2 "root"; Starts true 3 "user"; Ends "root"]) k (fork_server_address "user") 3.
Proof.
  apply C107_fork_server_partial; [repeat constructor; cbn; lia|cbn; lia|reflexivity|]. exists [Starts true 1 "user"; Starts true 2 "root"], [Ends "root"]. split; [reflexivity|].
  intros e [<-|[]]. discriminate.
Qed.
(** Without arguments the server is the one of the user in its environment *)
Theorem C107_which args user p : fork_server_socket args user = Some p <->
  (args = [p]) \/ (args = [] /\ exists u, p = fork_server_path u /\ (user = Some u \/ user = None /\ u = "(null)")).
Proof.
  destruct args as [|x [|y l]]; cbn [fork_server_socket]; split; try discriminate.
  - intros [= <-]. right. split; [reflexivity|]. destruct user as [u|]; [exists u; auto|exists "(null)"; auto].
  - intros [E|(_ & u & -> & [->|[-> ->]])]; [discriminate|reflexivity|reflexivity].
  - intros [= ->]. auto.
  - intros [[= ->]|[E _]]; [reflexivity|discriminate].
  - intros [E|[E _]]; discriminate.
Qed.

(** ** C108: the commands of a fork server *)
Theorem C108_one len data c : Agent.fork_server_command len data = Some c <->
  exists text, handed_over len data text /\ parse_qubes_rpc_command text false = Some c.
Proof.
  unfold Agent.fork_server_command, handed_over. destruct (Z.ltb_spec len 1) as [L|L].
  { cbn [orb]. split; [discriminate|]. intros (t & (_ & _ & E & _) & _). lia. }
  cbn [orb]. rewrite Z.gtb_ltb. destruct (Z.ltb_spec 2147483647 len) as [M|M].
  { split; [discriminate|]. intros (t & (_ & _ & _ & E) & _). lia. }
  destruct (Z.ltb_spec (zlen data) len) as [D|D].
  { split; [discriminate|]. intros (t & (_ & (rest & ->) & E & _) & _). unfold zlen in D. rewrite !length_app_s in D. change (String.length (str1 NUL)) with 1 in D. lia. }
  unfold zlen in D. set (line := stake (Z.to_nat len) data). assert (Ll : String.length line = Z.to_nat len) by (apply stake_exact; lia).
  assert (Ne : line <> "") by (intros Q; rewrite Q in Ll; cbn [String.length] in Ll; lia).
  pose proof (nul_name line Ne) as N. rewrite Ll in N. replace (Z.to_nat len - 1) with (Z.to_nat (len - 1)) in N by lia.
  assert (Q : (zlen (cstr line) =? len - 1)%Z = Nat.eqb (String.length (cstr line)) (Z.to_nat (len - 1))).
  { unfold zlen. destruct (Nat.eqb_spec (String.length (cstr line)) (Z.to_nat (len - 1))) as [E|E]; [apply Z.eqb_eq; lia|apply Z.eqb_neq; lia]. }
  rewrite Q. split.
  - intros H. destruct (String.eqb (sdrop (Z.to_nat (len - 1)) line) (str1 NUL)); [|discriminate]. destruct (Nat.eqb _ _); [|discriminate]. cbn [negb] in H.
    destruct (proj1 N (conj eq_refl eq_refl)) as (t & Et & Nt). exists t. assert (C : cstr line = t) by (rewrite Et, cstr_app by exact Nt; change (str1 NUL) with (String NUL ""); rewrite cstr_nul; apply app_nil_s).
    rewrite C in H. split; [|exact H]. split; [exact Nt|]. split.
    + exists (sdrop (Z.to_nat len) data). rewrite <- app_assoc_s, <- Et. apply take_drop.
    + rewrite Et, length_app_s in Ll. change (String.length (str1 NUL)) with 1 in Ll. lia.
  - intros (t & (Nt & (rest & Ed) & El & _) & P).
    assert (Et : line = t +++ str1 NUL).
    { unfold line. rewrite Ed, <- app_assoc_s. apply stake_app_eq. rewrite length_app_s. change (String.length (str1 NUL)) with 1. lia. }
    destruct (proj2 N (ex_intro _ t (conj Et Nt))) as [-> ->]. cbn [negb].
    assert (C : cstr line = t) by (rewrite Et, cstr_app by exact Nt; change (str1 NUL) with (String NUL ""); rewrite cstr_nul; apply app_nil_s).
    rewrite C. exact P.
Qed.
(** Each connection is served once, in the order in which they come, and what one of them sends
    changes nothing for the others; it goes on until no further connection can be accepted *)
Theorem C108_each before x after : ~ In Gone before ->
  fst (serve (before ++ x :: after)) = fst (serve before) ++ fst (serve [x]) ++ (match x with Gone => [] | _ => fst (serve after) end) /\
  length (fst (serve before)) = length before /\ snd (serve before) = false /\ snd (serve (before ++ Gone :: after)) = true.
Proof.
  intros H. induction before as [|b before IH].
  - cbn [app length]. split; [destruct x; reflexivity|]. repeat split; reflexivity.
  - destruct IH as (I1 & I2 & I3 & I4); [intros Q; apply H; right; exact Q|]. destruct b as [len data| |]; [| |exfalso; apply H; left; reflexivity];
      cbn [app serve fst snd length]; rewrite I1; repeat split; auto.
Qed.
Example ex_C108 : fst (serve [Came 6 ("ls -l" +++ str1 NUL); Cut; Came 5 "ls -l"; Came 3 ("id" +++ str1 NUL); Gone]) =
  [parse_qubes_rpc_command "ls -l" false; None; None; parse_qubes_rpc_command "id" false] /\ parse_qubes_rpc_command "id" false <> None.
Proof. split; [vm_compute; reflexivity|vm_compute; discriminate]. Qed.
