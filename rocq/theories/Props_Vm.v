(** * C79, C80, C81: running a service in a qube *)
From Coq Require Import String Ascii List Bool Arith ZArith Lia.
From Verif Require Import Base Sanitize DaemonAgent DaemonState SpecState StateProofs CallsProofs SpecAgent AgentProofs SanitizeProofs ExecuteVm SpecVm.
Import ListNotations.
Open Scope string_scope.
Open Scope list_scope.
Open Scope Z_scope.

(** ** Numbers on the wire *)
Lemma byte_of_ascii a : byte (Z.of_nat (nat_of_ascii a)) = a.
Proof.
  unfold byte. pose proof (ascii_range a). rewrite Z.mod_small by lia. rewrite Nat2Z.id. apply ascii_nat_embedding.
Qed.
Lemma nat_of_byte z : Z.of_nat (nat_of_ascii (byte z)) = z mod 256.
Proof. unfold byte. pose proof (Z.mod_pos_bound z 256 ltac:(lia)). rewrite nat_ascii_embedding; lia. Qed.
Lemma u32_le32 z r : 0 <= z < 4294967296 -> u32 (le32 z +++ r) = z.
Proof.
  intros H. unfold le32. cbn [String.append]. rewrite u32_cons. unfold number. rewrite !nat_of_byte.
  pose proof (Z.div_mod z 256 ltac:(lia)). pose proof (Z.div_mod (z / 256) 256 ltac:(lia)). pose proof (Z.div_mod (z / 65536) 256 ltac:(lia)).
  rewrite (Z.div_div z 256 256) in * by lia. rewrite (Z.div_div z 65536 256) in * by lia. change (256 * 256) with 65536 in *. change (65536 * 256) with 16777216 in *.
  assert (0 <= z / 16777216 < 256) by (split; [apply Z.div_pos; lia|apply Z.div_lt_upper_bound; lia]). rewrite (Z.mod_small (z / 16777216)) by lia. lia.
Qed.
Lemma byte_ext z z' : z mod 256 = z' mod 256 -> byte z = byte z'.
Proof. unfold byte. now intros ->. Qed.
Lemma byte_number a k : byte (Z.of_nat (nat_of_ascii a) + 256 * k) = a.
Proof. rewrite <- (byte_of_ascii a) at 2. apply byte_ext. rewrite (Z.mul_comm 256), Z.mod_add by lia. reflexivity. Qed.
Lemma le32_u32 b : (4 <= String.length b)%nat -> le32 (u32 b) +++ sdrop 4 b = b.
Proof.
  intros H. destruct (four_bytes b H) as (a0 & a1 & a2 & a3 & r & ->). rewrite u32_cons. unfold le32, number. cbn [sdrop String.append].
  pose proof (ascii_range a0). pose proof (ascii_range a1). pose proof (ascii_range a2). pose proof (ascii_range a3).
  set (x0 := Z.of_nat (nat_of_ascii a0)) in *. set (x1 := Z.of_nat (nat_of_ascii a1)) in *. set (x2 := Z.of_nat (nat_of_ascii a2)) in *. set (x3 := Z.of_nat (nat_of_ascii a3)) in *.
  f_equal; [|f_equal; [|f_equal; [|f_equal]]].
  - transitivity (byte (x0 + 256 * (x1 + 256 * x2 + 65536 * x3))); [f_equal; ring|apply byte_number].
  - transitivity (byte (x1 + 256 * (x2 + 256 * x3))); [f_equal|apply byte_number]. symmetry. apply (Z.div_unique_pos _ 256 _ x0); lia.
  - transitivity (byte (x2 + 256 * x3)); [f_equal|apply byte_number]. symmetry. apply (Z.div_unique_pos _ 65536 _ (x0 + 256 * x1)); lia.
  - transitivity (byte (x3 + 256 * 0)); [f_equal|apply byte_number]. symmetry. apply (Z.div_unique_pos _ 16777216 _ (x0 + 256 * x1 + 65536 * x2)); lia.
Qed.
Lemma byte_div z d q : (0 < d -> 4294967296 = q * 256 * d -> byte ((z - 4294967296) / d) = byte (z / d)).
Proof.
  intros Hd E. apply byte_ext. replace (z - 4294967296) with (z + (- q * 256) * d) by lia. rewrite Z.div_add by lia. apply Z.mod_add. lia.
Qed.
Lemma le32_to_int z : le32 (to_int z) = le32 z.
Proof.
  unfold to_int. destruct (z <? 2147483648); [reflexivity|]. unfold le32.
  pose proof (byte_div z 1 16777216 ltac:(lia) ltac:(lia)) as X. rewrite !Z.div_1_r in X.
  now rewrite X, (byte_div z 256 65536), (byte_div z 65536 256), (byte_div z 16777216 1) by lia.
Qed.

(** ** The pieces *)
Lemma answer_spec w type d p : negotiate_answer type (w_answer w) = Agreed d p -> answered_with w type d p.
Proof.
  unfold negotiate_answer, answered_with. destruct (w_answer w) as [b|]; [|discriminate].
  destruct (Nat.ltb_spec (String.length b) 8) as [?|H8]; [discriminate|].
  destruct (negb _) eqn:E1; [discriminate|]. destruct (negb (u32 (sdrop 4 b) =? 8)) eqn:E2; [discriminate|].
  destruct (Nat.ltb_spec (String.length b) 16) as [?|H16]; [discriminate|].
  intros H. apply negb_false_iff, Z.eqb_eq in E1, E2. exists (sdrop 16 b).
  assert (D : forall n, (n <= String.length b)%nat -> String.length (sdrop n b) = (String.length b - n)%nat) by (intros; apply sdrop_length).
  assert (H0 : b = le32 type +++ sdrop 4 b) by (rewrite <- E1; symmetry; apply le32_u32; lia).
  assert (S1 : sdrop 8 b = sdrop 4 (sdrop 4 b)) by (do 16 (destruct b as [|? b]; [reflexivity|]); reflexivity).
  assert (S2 : sdrop 12 b = sdrop 4 (sdrop 8 b)) by (do 16 (destruct b as [|? b]; [reflexivity|]); reflexivity).
  assert (S3 : sdrop 16 b = sdrop 4 (sdrop 12 b)) by (do 16 (destruct b as [|? b]; [reflexivity|]); reflexivity).
  assert (H1 : sdrop 4 b = le32 8 +++ sdrop 8 b) by (rewrite <- E2, S1; symmetry; apply le32_u32; rewrite D; lia).
  assert (Ed : d = to_int (u32 (sdrop 8 b)) /\ p = to_int (u32 (sdrop 12 b))) by (split; congruence). destruct Ed as [-> ->].
  assert (H2 : sdrop 8 b = le32 (to_int (u32 (sdrop 8 b))) +++ sdrop 12 b) by (rewrite le32_to_int, S2; symmetry; apply le32_u32; rewrite D; lia).
  assert (H3 : sdrop 12 b = le32 (to_int (u32 (sdrop 12 b))) +++ sdrop 16 b) by (rewrite le32_to_int, S3; symmetry; apply le32_u32; rewrite D; lia).
  rewrite H0 at 1. rewrite H1 at 1. rewrite H2 at 1. rewrite H3 at 1. reflexivity.
Qed.
Lemma answer_complete w type d p : 0 <= type < 4294967296 -> -2147483648 <= d < 2147483648 -> -2147483648 <= p < 2147483648 ->
  answered_with w type d p -> negotiate_answer type (w_answer w) = Agreed d p.
Proof.
  intros Ht Hd Hp (more & ->). unfold negotiate_answer.
  assert (E : forall z r, String.length (le32 z +++ r) = (4 + String.length r)%nat) by reflexivity.
  rewrite !E. cbn [Nat.add]. cbn [Nat.ltb Nat.leb]. rewrite u32_le32 by exact Ht. rewrite Z.eqb_refl. cbn [negb].
  change (sdrop 4 (le32 type +++ le32 8 +++ le32 d +++ le32 p +++ more)) with (le32 8 +++ le32 d +++ le32 p +++ more). rewrite u32_le32 by lia. cbn [Z.eqb Pos.eqb negb].
  change (sdrop 8 (le32 type +++ le32 8 +++ le32 d +++ le32 p +++ more)) with (le32 d +++ le32 p +++ more).
  change (sdrop 12 (le32 type +++ le32 8 +++ le32 d +++ le32 p +++ more)) with (le32 p +++ more).
  assert (T : forall z r, -2147483648 <= z < 2147483648 -> to_int (u32 (le32 z +++ r)) = z).
  { intros z r Hz. destruct (Z.leb_spec 0 z).
    - rewrite u32_le32 by lia. unfold to_int. destruct (Z.ltb_spec z 2147483648); lia.
    - assert (Ez : z = to_int (z + 4294967296)) by (unfold to_int; destruct (Z.ltb_spec (z + 4294967296) 2147483648); lia).
      rewrite Ez at 1. rewrite le32_to_int, u32_le32 by lia. symmetry. exact Ez. }
  now rewrite !T.
Qed.

Lemma response_some r b : qubesd_response r = Some b -> r = Some b.
Proof. unfold qubesd_response. destruct r as [c|]; [|discriminate]. destruct (_ || _); [discriminate|auto]. Qed.
Lemma zero_response x : qubesd_response (Some ("0" +++ str1 NUL +++ x)) = Some ("0" +++ str1 NUL +++ x).
Proof. reflexivity. Qed.
Lemma cstr_len_all s : String.length (cstr s) = String.length s -> has_char NUL s = false /\ cstr s = s.
Proof.
  induction s as [|c s IH]; [auto|]. cbn [cstr]. destruct (Ascii.eqb c NUL) eqn:E; [discriminate|]. cbn [String.length has_char].
  intros H. destruct IH as [A B]; [lia|]. split; [|now rewrite B]. rewrite A. rewrite Ascii.eqb_sym, E. reflexivity.
Qed.
Lemma created_spec w uuid name : (exists b, qubesd_response (w_create w) = Some b /\ created_name uuid b = Some name) <-> created w uuid name.
Proof.
  unfold created, created_name. split.
  - intros (b & Hb & H). apply response_some in Hb. destruct (starts zero b) eqn:Ez; [|discriminate]. apply starts_spec in Ez as (x & ->).
    change (sdrop 2 (zero +++ x)) with x in H. change (String.length (zero +++ x)) with (S (S (String.length x))) in H. rewrite Nat.sub_succ, Nat.sub_succ, Nat.sub_0_r in H.
    destruct (Nat.eqb_spec (String.length (cstr x)) (String.length x)) as [El|]; [|discriminate]. cbn [negb] in H.
    apply cstr_len_all in El as [A B]. destruct (uuid && negb _) eqn:Eu; [discriminate|]. injection H as <-. rewrite B in *.
    split; [exact Hb|]. split; [exact A|]. intros ->. cbn [andb] in Eu. apply negb_false_iff, andb_true_iff in Eu as [E1 E2].
    apply Nat.eqb_eq in E1. apply starts_spec in E2 as (u & ->). exists u. split; [reflexivity|].
    change (String.length ("uuid:" +++ u)) with (5 + String.length u)%nat in E1. lia.
  - intros (Hb & Hn & Hu). exists (zero +++ name). rewrite Hb. split; [reflexivity|]. rewrite starts_app. change (sdrop 2 (zero +++ name)) with name.
    change (String.length (zero +++ name)) with (S (S (String.length name))). rewrite Nat.sub_succ, Nat.sub_succ, Nat.sub_0_r.
    assert (C : cstr name = name) by (rewrite <- (app_nil_s name) at 1; rewrite cstr_app by exact Hn; apply app_nil_s). rewrite C, Nat.eqb_refl. cbn [negb].
    destruct uuid; [|reflexivity]. destruct (Hu eq_refl) as (u & -> & Hl). change (String.length ("uuid:" +++ u)) with (5 + String.length u)%nat. rewrite Hl.
    rewrite starts_app. reflexivity.
Qed.
Lemma accepted_spec w : match qubesd_response (w_start w) with
  | None => false | Some b => starts zero b || starts ("2" +++ str1 NUL +++ "QubesVMNotHaltedError" +++ str1 NUL) b end = true <-> started w.
Proof.
  unfold started. split.
  - destruct (qubesd_response (w_start w)) as [b|] eqn:E; [|discriminate]. apply response_some in E. intros H. apply orb_prop in H as [H|H]; apply starts_spec in H as (r & ->); exists r.
    + left. exact E.
    + right. exact E.
  - intros (r & [->| ->]).
    + rewrite zero_response. change ("0" +++ str1 NUL +++ r) with (zero +++ r). now rewrite starts_app.
    + unfold qubesd_response. cbn [String.append str1 String.length Nat.ltb Nat.leb has_char orb negb].
      change (Ascii.eqb "2" NUL) with false. change (Ascii.eqb NUL NUL) with true. cbn [orb negb]. apply orb_true_intro. right.
      apply starts_spec. exists r. reflexivity.
Qed.
Lemma request_plain name method payload : plain name -> Qubesd (qubesd_request name method payload) = ask method name payload.
Proof.
  intros H. unfold ask, qubesd_request. f_equal. destruct name as [|c n]; [reflexivity|]. destruct (Ascii.eqb_spec c "@") as [->|]; [|reflexivity].
  exfalso. apply (H n). reflexivity.
Qed.

(** ** The trace, in pieces *)
Lemma connected_shape w dom name cmd id just wait kill a r : execute_connected w dom name cmd id just wait kill = (a, r) ->
  let type := if just then MSG_JUST_EXEC else MSG_EXEC_CMDLINE in
  let first := Send (command_message type dom (cmd +++ str1 NUL)) in
  let killing := if kill then [Qubesd (qubesd_request name "admin.vm.Kill" "")] else [] in
  (a = [first] /\ r = Dies) \/
  (a = first :: killing /\ r = Returns false) \/
  exists d p more, answered_with w type d p /\
    a = first :: (if wait then [] else [Close]) ++ more ++ (if wait then Wait :: killing else []) /\
    (more = [Connect (string_of_id dom)] /\ r = Returns false \/
     connect_unix_socket (w_dir w) (string_of_id dom) (w_back w) = Connected /\
     more = [Connect (string_of_id dom); Send (service_connect_message id d p)] /\ r = Returns (w_back_sends w)).
Proof.
  unfold execute_connected. cbv zeta. destruct (negotiate_answer _ _) as [d p| |] eqn:E.
  - apply answer_spec in E. intros H. right. right. exists d, p.
    destruct (connect_unix_socket _ _ _) eqn:Ec; injection H as <- <-.
    + exists [Connect (string_of_id dom); Send (service_connect_message id d p)]. split; [exact E|]. split; [reflexivity|auto].
    + exists [Connect (string_of_id dom)]. split; [exact E|]. split; [reflexivity|auto].
    + exists [Connect (string_of_id dom)]. split; [exact E|]. split; [reflexivity|auto].
  - intros H; injection H as <- <-. auto.
  - intros H; injection H as <- <-. auto.
Qed.
Lemma named_shape w autostart dom name cmd id just wait kill a r : execute_named w autostart dom name cmd id just wait kill = (a, r) ->
  let killing := if kill then [Qubesd (qubesd_request name "admin.vm.Kill" "")] else [] in
  let before := if kill then [] else [Connect name] in
  let start := Qubesd (qubesd_request name "admin.vm.Start" "") in
  (* not connected *)
  (autostart = false \/ kill = false) /\ a = before ++ killing /\ r = Returns false \/
  (* not started *)
  autostart = true /\ ~ started w /\ a = before ++ [start] /\ r = Returns false \/
  (* started, and not connected *)
  autostart = true /\ started w /\ a = before ++ [start; Connect name] ++ killing /\ r = Returns false \/
  (* connected *)
  exists b, (kill = false /\ b = [] \/ autostart = true /\ started w /\ b = [start; Connect name]) /\
    (exists a', execute_connected w dom name cmd id just wait kill = (a', r) /\ a = before ++ b ++ a').
Proof.
  unfold execute_named. cbv zeta. pose proof (accepted_spec w) as Acc.
  set (acc := match qubesd_response (w_start w) with None => false | Some b => _ end) in *.
  destruct (if kill then NotRunning else connect_unix_socket (w_dir w) name (w_first w)) eqn:Ef.
  - destruct kill; [discriminate|]. destruct (execute_connected _ _ _ _ _ _ _ _) as [a' r'] eqn:E. intros H; injection H as <- <-.
    right. right. right. exists []. split; [auto|]. exists a'. auto.
  - destruct autostart; cbn [negb].
    + destruct acc eqn:Ea; cbn [negb].
      * assert (started w) by (now apply Acc). destruct (connect_unix_socket (w_dir w) name (w_second w)).
        -- destruct (execute_connected _ _ _ _ _ _ _ _) as [a' r'] eqn:E. intros H1; injection H1 as <- <-.
           right. right. right. exists [Qubesd (qubesd_request name "admin.vm.Start" ""); Connect name]. split; [auto|]. exists a'. auto.
        -- intros H1; injection H1 as <- <-. right. right. left. auto.
        -- intros H1; injection H1 as <- <-. right. right. left. auto.
      * assert (~ started w) by (intros X; apply Acc in X; discriminate). intros H1; injection H1 as <- <-. right. left. auto.
    + intros H1; injection H1 as <- <-. left. auto.
  - destruct kill; [discriminate|]. intros H1; injection H1 as <- <-. left. auto.
Qed.
Lemma vm_shape w target autostart dom cmd id just wait uuid tr r :
  qrexec_execute_vm w target autostart dom cmd id just wait uuid = (tr, r) ->
  tr = [] /\ r = Returns false \/
  (exists t, target = "@dispvm:" +++ t /\ autostart = true /\ just = false /\
    let create := Qubesd (qubesd_request t "admin.vm.CreateDisposable" (if uuid then "uuid" else "")) in
    (tr = [create] /\ r = Returns false /\ (forall name, ~ created w uuid name) \/
     exists name a, created w uuid name /\ execute_named w true dom name cmd id false true true = (a, r) /\ tr = create :: a)) \/
  (forall t, target <> "@dispvm:" +++ t) /\ execute_named w autostart dom target cmd id just wait false = (tr, r).
Proof.
  unfold qrexec_execute_vm. cbv zeta. destruct (_ || _); [intros H; injection H as <- <-; auto|].
  destruct (starts dispvm_prefix target) eqn:Es.
  - apply starts_spec in Es as (t & ->). destruct autostart; cbn [negb]; [|intros H; injection H as <- <-; auto].
    destruct just; [intros H; injection H as <- <-; auto|]. intros H. right. left. exists t. split; [reflexivity|]. split; [reflexivity|]. split; [reflexivity|].
    change (sdrop 8 (dispvm_prefix +++ t)) with t in H.
    pose proof (created_spec w uuid) as C. destruct (qubesd_response (w_create w)) as [b|] eqn:Eb.
    + destruct (created_name uuid b) as [name|] eqn:En.
      * destruct (execute_named _ _ _ _ _ _ _ _ _) as [a r'] eqn:E. injection H as <- <-. right. exists name, a. split; [apply C; exists b; auto|]. auto.
      * injection H as <- <-. left. split; [reflexivity|]. split; [reflexivity|]. intros name X. apply C in X as (b' & E1 & E2). congruence.
    + injection H as <- <-. left. split; [reflexivity|]. split; [reflexivity|]. intros name X. apply C in X as (b' & E1 & E2). congruence.
  - intros H. right. right. split; [|exact H]. intros t ->. change dispvm_prefix with "@dispvm:" in Es. rewrite starts_app in Es. discriminate.
Qed.

(** ** C79: disposables *)
Definition no_kill (tr : list action) : Prop := Forall (fun a => ~ asks_for "admin.vm.Kill" a) tr.
Lemma request_text name method payload : exists rest, qubesd_request name method payload = method +++ "+" +++ rest.
Proof. unfold qubesd_request. eexists. reflexivity. Qed.
Lemma not_kill_start name : ~ asks_for "admin.vm.Kill" (Qubesd (qubesd_request name "admin.vm.Start" "")).
Proof. intros (rest & E). unfold qubesd_request in E. cbn [String.append] in E. congruence. Qed.
Lemma not_kill_create name p : ~ asks_for "admin.vm.Kill" (Qubesd (qubesd_request name "admin.vm.CreateDisposable" p)).
Proof. intros (rest & E). unfold qubesd_request in E. cbn [String.append] in E. congruence. Qed.
Lemma not_kill_other a : (forall q, a <> Qubesd q) -> ~ asks_for "admin.vm.Kill" a.
Proof. intros H (rest & E). now apply H in E. Qed.
Ltac nokill := repeat first [apply Forall_nil | apply Forall_cons | apply not_kill_start | apply not_kill_create | (apply not_kill_other; intros ?; discriminate)].

(** the connected part, cut before the kill *)
Lemma connected_kill w dom name cmd id just wait kill a r : execute_connected w dom name cmd id just wait kill = (a, r) -> (kill = true -> wait = true) ->
  exists mid, no_kill mid /\ (r = Dies /\ a = mid \/ r <> Dies /\ a = mid ++ (if kill then [Qubesd (qubesd_request name "admin.vm.Kill" "")] else [])) /\
  (kill = true -> In (Connect (string_of_id dom)) mid -> exists m, mid = m ++ [Wait]).
Proof.
  intros H Hw. apply connected_shape in H as [[-> ->]|[[-> ->]|(d & p & more & _ & -> & Hm)]].
  - exists [Send (command_message (if just then MSG_JUST_EXEC else MSG_EXEC_CMDLINE) dom (cmd +++ str1 NUL))]. split; [nokill|]. split; [auto|]. intros _ [X|[]]. discriminate.
  - exists [Send (command_message (if just then MSG_JUST_EXEC else MSG_EXEC_CMDLINE) dom (cmd +++ str1 NUL))]. split; [nokill|]. split; [right; split; [discriminate|reflexivity]|]. intros _ [X|[]]. discriminate.
  - assert (Nm : no_kill more) by (destruct Hm as [[-> _]|(_ & -> & _)]; nokill).
    assert (Nd : r <> Dies) by (destruct Hm as [[_ ->]|(_ & _ & ->)]; discriminate).
    destruct kill.
    + rewrite (Hw eq_refl). exists (Send (command_message (if just then MSG_JUST_EXEC else MSG_EXEC_CMDLINE) dom (cmd +++ str1 NUL)) :: more ++ [Wait]). split; [|split].
      * apply Forall_cons; [apply not_kill_other; discriminate|]. apply Forall_app. split; [exact Nm|nokill].
      * right. split; [exact Nd|]. cbn [List.app]. now rewrite <- app_assoc.
      * intros _ _. exists (Send (command_message (if just then MSG_JUST_EXEC else MSG_EXEC_CMDLINE) dom (cmd +++ str1 NUL)) :: more). reflexivity.
    + eexists. split; [|split; [right; split; [exact Nd|symmetry; apply app_nil_r]|discriminate]].
      apply Forall_cons; [apply not_kill_other; discriminate|]. apply Forall_app. split; [destruct wait; nokill|]. apply Forall_app. split; [exact Nm|destruct wait; nokill].
Qed.
Lemma named_kill w autostart dom name cmd id just wait kill a r : execute_named w autostart dom name cmd id just wait kill = (a, r) -> (kill = true -> wait = true) ->
  exists mid, no_kill mid /\
  (a = mid /\ (kill = true -> autostart = true /\ (~ started w \/ r = Dies)) \/
   a = mid ++ [Qubesd (qubesd_request name "admin.vm.Kill" "")] /\ kill = true) /\
  (kill = true -> In (Connect (string_of_id dom)) mid -> name <> string_of_id dom -> exists m, mid = m ++ [Wait]).
Proof.
  intros H Hw. apply named_shape in H as [(_ & -> & ->)|[(Ha & Hs & -> & ->)|[(Ha & Hs & -> & ->)|(b & Hb & a' & Hc & ->)]]].
  - destruct kill; cbn [List.app].
    + exists []. split; [nokill|]. split; [auto|]. intros _ [].
    + eexists. split; [|split; [left; split; [reflexivity|discriminate]|discriminate]]. nokill.
  - eexists. split; [|split; [left; split; [reflexivity|auto]|]].
    + destruct kill; cbn [List.app]; nokill.
    + intros -> [X|[]]. discriminate.
  - destruct kill; cbn [List.app].
    + exists [Qubesd (qubesd_request name "admin.vm.Start" ""); Connect name]. split; [nokill|]. split; [right; split; reflexivity|]. intros _ [X|[X|[]]] Hne; [discriminate|]. exfalso. apply Hne. congruence.
    + eexists. split; [|split; [left; split; [reflexivity|discriminate]|discriminate]]. nokill.
  - destruct (connected_kill _ _ _ _ _ _ _ _ _ _ Hc Hw) as (mid & N & Hk & Hwt).
    assert (Nb : no_kill ((if kill then [] else [Connect name]) ++ b)).
    { apply Forall_app. split; [destruct kill; nokill|]. destruct Hb as [(_ & ->)|(_ & _ & ->)]; nokill. }
    exists (((if kill then [] else [Connect name]) ++ b) ++ mid). split; [apply Forall_app; auto|]. split.
    + destruct Hk as [(-> & ->)|(Hr & ->)].
      * left. split; [now rewrite <- app_assoc|]. intros ->. destruct Hb as [(X & _)|(X & _)]; [discriminate|]. auto.
      * destruct kill.
        -- right. split; [|reflexivity]. now rewrite <- !app_assoc.
        -- left. split; [|discriminate]. now rewrite app_nil_r, <- app_assoc.
    + intros -> Hin Hne. destruct Hb as [(X & _)|(_ & _ & ->)]; [discriminate|]. cbn [List.app] in *.
      destruct Hin as [X|[X|X]]; [discriminate|exfalso; apply Hne; congruence|]. destruct (Hwt eq_refl X) as (m & ->). eexists (_ :: _ :: m). reflexivity.
Qed.

(** Nothing is killed but the disposable that was created by this call, after all else,
    and once *)
Theorem C79_kills_only_created w target autostart dom cmd id just wait uuid tr r i a :
  qrexec_execute_vm w target autostart dom cmd id just wait uuid = (tr, r) ->
  nth_error tr i = Some a -> asks_for "admin.vm.Kill" a ->
  exists t name, target = "@dispvm:" +++ t /\ created w uuid name /\
    (plain t -> nth_error tr 0 = Some (ask "admin.vm.CreateDisposable" t (if uuid then "uuid" else ""))) /\
    (plain name -> a = ask "admin.vm.Kill" name "") /\ length tr = S i.
Proof.
  intros H Hi Ha. assert (N : forall l, no_kill l -> ~ In a l) by (intros l X Y; unfold no_kill in X; rewrite Forall_forall in X; now apply X in Y).
  apply nth_error_In in Hi as Hin.
  apply vm_shape in H as [(-> & _)|[(t & -> & _ & _ & [(-> & _)|(name & a0 & Hc & He & ->)])|(_ & He)]].
  - destruct Hin.
  - exfalso. revert Hin. apply N. nokill.
  - destruct (named_kill _ _ _ _ _ _ _ _ _ _ _ He ltac:(auto)) as (mid & Nm & Hk & _).
    destruct Hk as [(-> & _)|(-> & _)]; [exfalso; revert Hin; apply N, Forall_cons; [apply not_kill_create|exact Nm]|].
    exists t, name. split; [reflexivity|]. split; [exact Hc|]. split; [intros Hp; cbn [nth_error]; now rewrite request_plain by exact Hp|].
    change (?x :: mid ++ ?y) with ((x :: mid) ++ y) in Hi.
    destruct (Nat.lt_ge_cases i (S (length mid))) as [Hl|Hl].
    + exfalso. rewrite nth_error_app1 in Hi by exact Hl. apply nth_error_In in Hi. revert Hi. apply N, Forall_cons; [apply not_kill_create|exact Nm].
    + rewrite nth_error_app2 in Hi by exact Hl. cbn [length] in Hi. destruct (i - S (length mid))%nat as [|k] eqn:Ek; [|destruct k; discriminate].
      cbn [nth_error] in Hi. injection Hi as <-. split; [intros Hp; now apply request_plain|]. cbn [length]. rewrite app_length. cbn [length]. lia.
  - exfalso. destruct (named_kill _ _ _ _ _ _ _ _ _ _ _ He ltac:(discriminate)) as (mid & Nm & Hk & _).
    destruct Hk as [(-> & _)|(_ & X)]; [revert Hin; now apply N|discriminate].
Qed.
(** A disposable that was created and could be started is killed at the end, whatever
    goes wrong; when the connection was set up, not before it has ended. (The daemon of
    the target giving an answer of another type makes the program abort.) *)
Theorem C79_killed_at_the_end_partial w t dom cmd id wait uuid name tr b :
  (0 < String.length cmd)%nat -> (Z.of_nat (String.length cmd) < 65535) -> created w uuid name -> started w ->
  qrexec_execute_vm w ("@dispvm:" +++ t) true dom cmd id false wait uuid = (tr, Returns b) ->
  exists mid, tr = mid ++ [Qubesd (qubesd_request name "admin.vm.Kill" "")] /\ no_kill mid /\
    (In (Connect (string_of_id dom)) mid -> name <> string_of_id dom -> exists m, mid = m ++ [Wait]).
Proof.
  intros H0 H1 Hc Hs H.
  assert (Hne : tr <> []).
  { unfold qrexec_execute_vm in H. cbv zeta in H.
    assert (E : (Z.of_nat (String.length cmd) + 1 <? 2) || (Z.of_nat (String.length cmd) + 1 >? MAX_QREXEC_CMD_LEN) = false).
    { apply orb_false_intro; [apply Z.ltb_ge; lia|]. rewrite Z.gtb_ltb. apply Z.ltb_ge. unfold MAX_QREXEC_CMD_LEN. lia. }
    rewrite E in H. change dispvm_prefix with "@dispvm:" in H. rewrite starts_app in H. cbn [negb] in H.
    destruct (qubesd_response _); [destruct (created_name _ _); [destruct (execute_named _ _ _ _ _ _ _ _ _)|]|]; intros ->; discriminate. }
  apply vm_shape in H as [(-> & _)|[(t' & Et & _ & _ & [(_ & _ & X)|(name' & a0 & Hc' & He & ->)])|(X & _)]].
  - congruence.
  - now apply X in Hc.
  - assert (name' = name) by (destruct Hc as (A & _), Hc' as (B & _); rewrite A in B; cbn [String.append str1] in B; congruence). subst name'.
    destruct (named_kill _ _ _ _ _ _ _ _ _ _ _ He ltac:(auto)) as (mid & Nm & Hk & Hwt).
    destruct Hk as [(_ & X)|(-> & _)]; [destruct (X eq_refl) as (_ & [Y|Y]); [contradiction|discriminate]|].
    eexists (_ :: mid). split; [reflexivity|]. split; [apply Forall_cons; [apply not_kill_create|exact Nm]|].
    intros [X|Hin] Hne'; [discriminate|]. destruct (Hwt eq_refl Hin Hne') as (m & ->). eexists (_ :: m). reflexivity.
  - exfalso. now apply (X t).
Qed.
(** but not when it could not be started: it stays *)
Definition ex_sock : sock_env := {| se_connect := ConnOk; se_hello := Some (768, 4, 3); se_sends := true |}.
Definition ex_world (start : string) : world :=
  {| w_dir := "/run/qubes"; w_create := Some ("0" +++ str1 NUL +++ "disp1234"); w_first := ex_sock; w_start := Some start; w_second := ex_sock;
     w_answer := Some (le32 512 +++ le32 8 +++ le32 17 +++ le32 513); w_back := ex_sock; w_back_sends := true |}.
Theorem C79_failed_start_refuted : exists w tr, created w false "disp1234" /\
  qrexec_execute_vm w "@dispvm:template" true 5 "user:QUBESRPC svc+ work" "SOCKET1" false false false = (tr, Returns false) /\
  In (ask "admin.vm.CreateDisposable" "template" "") tr /\ no_kill tr.
Proof.
  exists (ex_world ("2" +++ str1 NUL +++ "QubesVMError")). eexists. split; [split; [reflexivity|split; [reflexivity|discriminate]]|].
  split; [vm_compute; reflexivity|]. split; [left; reflexivity|].
  apply Forall_cons; [intros (rest & E); cbn [String.append] in E; congruence|]. apply Forall_cons; [intros (rest & E); cbn [String.append] in E; congruence|]. apply Forall_nil.
Qed.
(** the hypotheses are met *)
Example C79_example : exists tr, created (ex_world ("0" +++ str1 NUL)) false "disp1234" /\ started (ex_world ("0" +++ str1 NUL)) /\
  qrexec_execute_vm (ex_world ("0" +++ str1 NUL)) "@dispvm:template" true 5 "user:QUBESRPC svc+ work" "SOCKET1" false false false = (tr, Returns true) /\
  In (ask "admin.vm.Kill" "disp1234" "") tr.
Proof.
  eexists. split; [split; [reflexivity|split; [reflexivity|discriminate]]|]. split; [exists ""; left; reflexivity|].
  split; [vm_compute; reflexivity|]. vm_compute. do 7 right. left. reflexivity.
Qed.

(** ** C80: the command *)
(** Without permission to start anything, nothing is asked from qubesd *)
Theorem C80_no_autostart w target dom cmd id just wait uuid tr r :
  qrexec_execute_vm w target false dom cmd id just wait uuid = (tr, r) -> forall q, ~ In (Qubesd q) tr.
Proof.
  intros H q Hin. apply vm_shape in H as [(-> & _)|[(t & _ & X & _)|(_ & He)]]; [destruct Hin|discriminate|].
  apply named_shape in He as [(_ & -> & _)|[(X & _)|[(X & _)|(b & Hb & a' & Hc & ->)]]]; try discriminate.
  - destruct Hin as [X|[]]. discriminate.
  - destruct Hb as [(_ & ->)|(X & _)]; [|discriminate]. cbn [List.app] in Hin. destruct Hin as [X|Hin]; [discriminate|].
    apply connected_shape in Hc as [[-> _]|[[-> _]|(d & p & more & _ & -> & Hm)]].
    + destruct Hin as [X|[]]; discriminate.
    + destruct Hin as [X|[]]; discriminate.
    + destruct Hin as [X|Hin]; [discriminate|]. apply in_app_or in Hin as [Hin|Hin]; [destruct wait; [destruct Hin|destruct Hin as [X|[]]; discriminate]|].
      apply in_app_or in Hin as [Hin|Hin]; [|destruct wait; [destruct Hin as [X|[]]; discriminate|destruct Hin]].
      destruct Hm as [(-> & _)|(_ & -> & _)]; [destruct Hin as [X|[]]; discriminate|destruct Hin as [X|[X|[]]]; discriminate].
Qed.
Lemma sends_app a b : sends (a ++ b) = sends a ++ sends b.
Proof. apply flat_map_app. Qed.
(** What is sent to daemons: at most the command, once, with the number of the calling
    qube; and then, to the daemon of the calling qube, the parameters that the daemon of
    the target answered, for the identifier of the call *)
Theorem C80_messages w target autostart dom cmd id just wait uuid tr r :
  qrexec_execute_vm w target autostart dom cmd id just wait uuid = (tr, r) ->
  let type := if just then 513 else 512 in
  let command := command_message type dom (cmd +++ str1 NUL) in
  (sends tr = [] /\ (r = Returns false)) \/
  (sends tr = [command] /\ r <> Returns true) \/
  (exists d p, answered_with w type d p /\ sends tr = [command; service_connect_message id d p] /\ r = Returns (w_back_sends w)).
Proof.
  assert (Named : forall autostart name just wait kill a r, execute_named w autostart dom name cmd id just wait kill = (a, r) ->
    let type := if just then 513 else 512 in
    let command := command_message type dom (cmd +++ str1 NUL) in
    (sends a = [] /\ (r = Returns false)) \/ (sends a = [command] /\ r <> Returns true) \/
    (exists d p, answered_with w type d p /\ sends a = [command; service_connect_message id d p] /\ r = Returns (w_back_sends w))).
  { clear. intros autostart name just wait kill a r H. cbv zeta. apply named_shape in H as [(_ & -> & ->)|[(Ha & Hs & -> & ->)|[(Ha & Hs & -> & ->)|(b & Hb & a' & Hc & ->)]]].
    - left. destruct kill; auto.
    - left. destruct kill; auto.
    - left. destruct kill; auto.
    - assert (Eb : sends ((if kill then [] else [Connect name]) ++ b ++ a') = sends a').
      { rewrite sends_app, sends_app. destruct Hb as [(Hk & ->)|(_ & _ & ->)]; destruct kill; reflexivity. }
      rewrite Eb. right. apply connected_shape in Hc as [[-> ->]|[[-> ->]|(d & p & more & Hans & -> & Hm)]].
      + left. split; [destruct just; reflexivity|discriminate].
      + left. split; [destruct kill, just; reflexivity|discriminate].
      + assert (Es : forall x, sends (Send x :: (if wait then [] else [Close]) ++ more ++ (if wait then Wait :: (if kill then [Qubesd (qubesd_request name "admin.vm.Kill" "")] else []) else [])) = x :: sends more).
        { intros x. change (sends (Send x :: ?l)) with (x :: sends l). rewrite !sends_app. destruct wait, kill; cbn [sends flat_map List.app]; now rewrite app_nil_r. }
        rewrite Es. destruct Hm as [(-> & ->)|(_ & -> & ->)].
        * left. split; [destruct just; reflexivity|discriminate].
        * right. exists d, p. split; [destruct just; exact Hans|]. split; [destruct just; reflexivity|reflexivity]. }
  intros H. cbv zeta. apply vm_shape in H as [(-> & ->)|[(t & -> & -> & -> & [(-> & -> & _)|(name & a & Hc & He & ->)])|(_ & He)]].
  - left. auto.
  - left. auto.
  - change (sends (Qubesd ?q :: a)) with (sends a). exact (Named _ _ _ _ _ _ _ He).
  - exact (Named _ _ _ _ _ _ _ He).
Qed.
(** The command goes to the daemon of the qube it is for: it is sent over the connection
    opened last, which is to the target or to the disposable created for it *)
Theorem C80_to_the_target w target autostart dom cmd id just wait uuid tr r :
  qrexec_execute_vm w target autostart dom cmd id just wait uuid = (tr, r) ->
  forall before bytes after, tr = before ++ Send bytes :: after -> sends before = [] ->
  exists b name, before = b ++ [Connect name] /\ to_run_in w target uuid name.
Proof.
  assert (Named : forall autostart name just wait kill a r, execute_named w autostart dom name cmd id just wait kill = (a, r) ->
    forall before bytes after, a = before ++ Send bytes :: after -> sends before = [] -> exists b, before = b ++ [Connect name]).
  { clear. intros autostart name just wait kill a r H before bytes after E Hb.
    assert (First : forall (l : list action) x, (forall q, x <> Send q) -> forall (l1 l2 : list action) y q, l ++ [x] ++ (Send y) :: l2 = before ++ Send q :: after -> sends l = [] -> before = l ++ [x]).
    { clear E. intros l x Hx _ l2 y q. revert before Hb. induction l as [|z l IH]; intros before Hb E Hl.
      - destruct before as [|u before]; [exfalso; cbn [List.app] in E; apply (Hx q); congruence|]. cbn [List.app] in E. injection E as <- E.
        destruct before as [|v before]; [reflexivity|]. exfalso. cbn [List.app] in E. injection E as <- E. change (sends (x :: Send y :: before)) with ((match x with Send b => [b] | _ => [] end) ++ y :: sends before) in Hb.
        destruct (match x with Send b => [b] | _ => [] end); discriminate.
      - destruct before as [|u before]; cbn [List.app] in E; [exfalso; injection E as -> _; discriminate|]. injection E as <- E. cbn [List.app]. f_equal. apply IH; [|exact E|].
        + destruct z; try exact Hb; discriminate.
        + destruct z; try exact Hl; discriminate. }
    assert (NoS : forall l, sends l = [] -> l <> before ++ Send bytes :: after).
    { intros l Hl ->. rewrite sends_app in Hl. destruct (sends before); discriminate. }
    apply named_shape in H as [(_ & -> & ->)|[(Ha & Hs & -> & ->)|[(Ha & Hs & -> & ->)|(b & Hbb & a' & Hc & ->)]]].
    1-3: exfalso; revert E; apply NoS; destruct kill; reflexivity.
    assert (Ea : exists x rest, a' = Send x :: rest).
    { apply connected_shape in Hc as [[-> _]|[[-> _]|(d & p & more & _ & -> & _)]]; eauto. }
    destruct Ea as (x & rest & ->).
    assert (Pre : exists l, (if kill then [] else [Connect name]) ++ b = l ++ [Connect name] /\ sends l = []).
    { destruct Hbb as [(-> & ->)|(_ & _ & ->)]; [exists []; auto|].
      exists ((if kill then [] else [Connect name]) ++ [Qubesd (qubesd_request name "admin.vm.Start" "")]). split; destruct kill; reflexivity. }
    destruct Pre as (l & El & Hl). rewrite app_assoc, El, <- app_assoc in E. exists l.
    eapply (First l (Connect name)); [discriminate|exact []|exact E|exact Hl]. }
  intros H before bytes after E Hb. apply vm_shape in H as [(-> & ->)|[(t & -> & -> & -> & [(-> & -> & _)|(name & a & Hc & He & ->)])|(Hn & He)]].
  - destruct before; discriminate.
  - exfalso. destruct before as [|u [|v before]]; cbn [List.app] in E; try discriminate.
  - destruct before as [|u before]; [discriminate|]. cbn [List.app] in E. injection E as <- E.
    destruct (Named _ _ _ _ _ _ _ He before bytes after E Hb) as (b & ->). eexists (_ :: b), name. split; [reflexivity|]. right. eauto.
  - destruct (Named _ _ _ _ _ _ _ He before bytes after E Hb) as (b & ->). exists b, target. split; [reflexivity|]. left. auto.
Qed.

(** ** When it is killed, and when a qube is started *)
(** The program is killed (by its assert) only by an answer that begins with the type of another message *)
Theorem C80_killed_only_by_wrong_answer w target autostart dom cmd id just wait uuid tr :
  qrexec_execute_vm w target autostart dom cmd id just wait uuid = (tr, Dies) ->
  exists b, w_answer w = Some b /\ (8 <= String.length b)%nat /\ forall more, b <> le32 (if just then 513 else 512) +++ more.
Proof.
  assert (C : forall name just wait kill a, execute_connected w dom name cmd id just wait kill = (a, Dies) ->
    exists b, w_answer w = Some b /\ (8 <= String.length b)%nat /\ forall more, b <> le32 (if just then 513 else 512) +++ more).
  { clear. intros name just wait kill a H. unfold execute_connected in H. cbv zeta in H.
    set (type := if just then MSG_JUST_EXEC else MSG_EXEC_CMDLINE) in *.
    assert (Et : type = if just then 513 else 512) by (unfold type; destruct just; reflexivity). rewrite <- Et.
    destruct (negotiate_answer type (w_answer w)) as [d p| |] eqn:N; [destruct (connect_unix_socket _ _ _) in H; congruence|congruence|].
    clear H. unfold negotiate_answer in N. destruct (w_answer w) as [b|]; [|discriminate]. destruct (String.length b <? 8)%nat eqn:L; [discriminate|]. apply Nat.ltb_ge in L.
    destruct (Z.eqb_spec (u32 b) type) as [E|E]; cbn [negb] in N.
    - destruct (negb _) in N; [discriminate|]. destruct (_ <? 16)%nat in N; discriminate.
    - exists b. split; [reflexivity|]. split; [exact L|]. intros more ->. apply E. apply u32_le32. rewrite Et. destruct just; lia. }
  assert (Nm : forall autostart name just wait kill a, execute_named w autostart dom name cmd id just wait kill = (a, Dies) ->
    exists b, w_answer w = Some b /\ (8 <= String.length b)%nat /\ forall more, b <> le32 (if just then 513 else 512) +++ more).
  { clear -C. intros autostart name just wait kill a H. unfold execute_named in H. cbv zeta in H.
    destruct (if kill then NotRunning else _) in H.
    - destruct (execute_connected _ _ _ _ _ _ _ _) as [a' r] eqn:E in H. assert (r = Dies) by congruence. subst r. exact (C _ _ _ _ _ E).
    - destruct (negb autostart) in H; [congruence|]. destruct (negb _) in H; [congruence|]. destruct (connect_unix_socket _ _ _) in H; try congruence.
      destruct (execute_connected _ _ _ _ _ _ _ _) as [a' r] eqn:E in H. assert (r = Dies) by congruence. subst r. exact (C _ _ _ _ _ E).
    - congruence. }
  intros H. unfold qrexec_execute_vm in H. cbv zeta in H. destruct (_ || _) in H; [congruence|]. destruct (starts _ _) in H; [|exact (Nm _ _ _ _ _ _ H)].
  destruct (negb autostart) in H; [congruence|]. destruct just; [congruence|]. destruct (qubesd_response _) as [b|] in H; [|congruence].
  destruct (created_name uuid b) as [name|] in H; [|congruence]. destruct (execute_named _ _ _ _ _ _ _ _ _) as [a r] eqn:E in H.
  assert (r = Dies) by congruence. subst r. exact (Nm _ _ _ _ _ _ E).
Qed.
(** A qube is started only if nothing listens for it: connecting to its daemon fails because there is no
    socket, or because nobody listens there; or it is a new disposable *)
Theorem C80_started_only_if_not_running w target autostart dom cmd id just wait uuid tr r a :
  qrexec_execute_vm w target autostart dom cmd id just wait uuid = (tr, r) -> In a tr -> asks_for "admin.vm.Start" a ->
  autostart = true /\ ((exists t, target = "@dispvm:" +++ t) \/ se_connect (w_first w) = ConnEnoent \/ se_connect (w_first w) = ConnRefused).
Proof.
  assert (Ns : forall q p, asks_for "admin.vm.Start" (Qubesd (qubesd_request q "admin.vm.Kill" p)) -> False) by (intros q p (x & E); discriminate E).
  assert (Nc : forall q p, asks_for "admin.vm.Start" (Qubesd (qubesd_request q "admin.vm.CreateDisposable" p)) -> False) by (intros q p (x & E); discriminate E).
  assert (No : forall x, (forall q, x <> Qubesd q) -> ~ asks_for "admin.vm.Start" x) by (intros x N (y & E); exact (N _ E)).
  assert (C : forall name just wait kill l r, execute_connected w dom name cmd id just wait kill = (l, r) -> forall a, In a l -> ~ asks_for "admin.vm.Start" a).
  { clear -Ns No. intros name just wait kill l r H a I. apply connected_shape in H as [[-> _]|[[-> _]|(d & p & more & _ & -> & M)]].
    - destruct I as [<-|[]]. apply No. discriminate.
    - destruct I as [<-|I]; [apply No; discriminate|]. destruct kill; [|destruct I]. destruct I as [<-|[]]. intros X. exact (Ns _ _ X).
    - destruct I as [<-|I]; [apply No; discriminate|]. apply in_app_or in I as [I|I].
      + destruct wait; [destruct I|]. destruct I as [<-|[]]. apply No. discriminate.
      + apply in_app_or in I as [I|I].
        * destruct M as [(-> & _)|(_ & -> & _)]; repeat (destruct I as [<-|I]; [apply No; discriminate|]); destruct I.
        * destruct wait; [|destruct I]. destruct I as [<-|I]; [apply No; discriminate|]. destruct kill; [|destruct I]. destruct I as [<-|[]]. intros X. exact (Ns _ _ X). }
  assert (Nm : forall name just wait kill l r a, execute_named w autostart dom name cmd id just wait kill = (l, r) -> In a l -> asks_for "admin.vm.Start" a ->
    autostart = true /\ (kill = true \/ se_connect (w_first w) = ConnEnoent \/ se_connect (w_first w) = ConnRefused)).
  { clear -C Ns No. intros name just wait kill l r a H I X. unfold execute_named in H. cbv zeta in H.
    assert (Bk : forall a l, In a ((if kill then [] else [Connect name]) ++ l) -> asks_for "admin.vm.Start" a -> In a l).
    { clear -No. intros a l I X. apply in_app_or in I as [I|I]; [|exact I]. destruct kill; [destruct I|]. destruct I as [<-|[]]. exfalso. revert X. apply No. discriminate. }
    assert (Kk : forall a, In a (if kill then [Qubesd (qubesd_request name "admin.vm.Kill" "")] else []) -> ~ asks_for "admin.vm.Start" a).
    { clear -Ns. intros a I X. destruct kill; [|destruct I]. destruct I as [<-|[]]. exact (Ns _ _ X). }
    assert (Nr : (if kill then NotRunning else connect_unix_socket (w_dir w) name (w_first w)) = NotRunning -> kill = true \/ se_connect (w_first w) = ConnEnoent \/ se_connect (w_first w) = ConnRefused).
    { clear. destruct kill; [auto|]. unfold connect_unix_socket, handle_daemon_handshake. destruct (_ >=? _); [discriminate|].
      destruct (se_connect (w_first w)); [|auto|auto|discriminate]. destruct (se_hello (w_first w)) as [[[ty len] v]|]; [|discriminate].
      destruct (negb _); [discriminate|]. destruct (_ <? _); [discriminate|]. destruct (se_sends (w_first w)); discriminate. }
    destruct (if kill then NotRunning else _) in H, Nr.
    - exfalso. destruct (execute_connected _ _ _ _ _ _ _ _) as [l' r'] eqn:E in H. assert (l = (if kill then [] else [Connect name]) ++ l') by congruence. subst l.
      exact (C _ _ _ _ _ _ E a (Bk _ _ I X) X).
    - destruct autostart; [split; [reflexivity|exact (Nr eq_refl)]|]. exfalso. cbn [negb] in H.
      assert (l = (if kill then [] else [Connect name]) ++ (if kill then [Qubesd (qubesd_request name "admin.vm.Kill" "")] else [])) by congruence. subst l. exact (Kk _ (Bk _ _ I X) X).
    - exfalso. assert (l = (if kill then [] else [Connect name]) ++ (if kill then [Qubesd (qubesd_request name "admin.vm.Kill" "")] else [])) by congruence. subst l. exact (Kk _ (Bk _ _ I X) X). }
  intros H I X. unfold qrexec_execute_vm in H. cbv zeta in H. destruct (_ || _) in H; [assert (tr = []) by congruence; subst tr; destruct I|].
  destruct (starts dispvm_prefix target) eqn:Sd in H.
  - apply starts_spec in Sd as (t & Et). change dispvm_prefix with "@dispvm:" in Et.
    destruct autostart; cbn [negb] in H; [|assert (tr = []) by congruence; subst tr; destruct I]. split; [reflexivity|]. left. exists t. exact Et.
  - destruct (Nm _ _ _ _ _ _ _ H I X) as [A [K|K]]; [discriminate K|]. split; [exact A|right; exact K].
Qed.
(** the hypotheses are met *)
Example C80_dies_and_starts :
  snd (qrexec_execute_vm {| w_dir := "/run/qubes"; w_create := None; w_first := ex_sock; w_start := None; w_second := ex_sock;
    w_answer := Some (le32 513 +++ le32 8 +++ le32 17 +++ le32 513); w_back := ex_sock; w_back_sends := true |} "work" true 5 "user:QUBESRPC svc+ work" "SOCKET1" false false false) = Dies /\
  exists tr, qrexec_execute_vm {| w_dir := "/run/qubes"; w_create := None; w_first := {| se_connect := ConnEnoent; se_hello := None; se_sends := true |}; w_start := Some ("0" +++ str1 NUL); w_second := ex_sock;
    w_answer := Some (le32 512 +++ le32 8 +++ le32 17 +++ le32 513); w_back := ex_sock; w_back_sends := true |} "work" true 5 "user:QUBESRPC svc+ work" "SOCKET1" false false false = (tr, Returns true) /\
    exists a, In a tr /\ asks_for "admin.vm.Start" a.
Proof.
  split; [vm_compute; reflexivity|]. eexists. split; [vm_compute; reflexivity|]. eexists. split; [right; left; reflexivity|]. eexists. vm_compute. reflexivity.
Qed.
