(** Proofs: signature parsing and argument resolution. *)
From Coq Require Import Reals String Ascii Lia.
From Verif Require Import PreludeFacts Series Feat_Model TAFactory_Model TAFactory_Spec.
Local Open Scope nat_scope.

Notation la := list_ascii_of_string.
Lemma la_app a b : la (a ++ b) = (la a ++ la b)%list.
Proof. induction a as [|c a IH]; cbn; congruence. Qed.
Lemma la_inv s : string_of_list_ascii (la s) = s. Proof. apply string_of_list_ascii_of_string. Qed.

Lemma append_assoc (a b c : string) : ((a ++ b) ++ c)%string = (a ++ b ++ c)%string.
Proof. induction a as [|x a IH]; cbn; congruence. Qed.

(** ** Splitting *)
Lemma starts_with_app p s : starts_with p (p ++ s)%list = true.
Proof. induction p as [|c p IH]; cbn; [reflexivity|]. now rewrite Ascii.eqb_refl. Qed.
Lemma split_skip sep acc : forall p s, split_at sep (List.length p) acc (p ++ s)%list = split_at sep 0 acc s.
Proof. induction p as [|c p IH]; intros s; [reflexivity|]. cbn [List.length app split_at]. apply IH. Qed.
Lemma split_name h sep' n : ~ In h n -> forall acc s, split_at (h :: sep') 0 acc (n ++ s)%list = split_at (h :: sep') 0 (rev n ++ acc)%list s.
Proof.
  induction n as [|c n IH]; intros Hn acc s; [reflexivity|]. cbn [app split_at starts_with].
  destruct (Ascii.eqb_spec h c) as [->|Hc]; [exfalso; apply Hn; now left|]. cbn [andb]. rewrite IH by (intros H; apply Hn; now right). cbn [rev]. now rewrite <- app_assoc.
Qed.
Lemma split_sep h sep' acc s : split_at (h :: sep') 0 acc ((h :: sep') ++ s)%list = rev acc :: split_at (h :: sep') 0 [] s.
Proof.
  cbn [app split_at]. change (h :: sep' ++ s)%list with ((h :: sep') ++ s)%list. rewrite starts_with_app. f_equal. cbn [List.length Nat.sub]. rewrite Nat.sub_0_r. apply split_skip.
Qed.
Lemma split_none h sep' n : ~ In h n -> split (h :: sep') n = [n].
Proof.
  intros H. unfold split. rewrite <- (app_nil_r n) at 1. rewrite split_name by auto. cbn [split_at]. now rewrite app_nil_r, rev_involutive.
Qed.
Lemma split_two h sep' n s : ~ In h n -> split (h :: sep') (n ++ (h :: sep') ++ s)%list = n :: split (h :: sep') s.
Proof. intros H. unfold split. rewrite split_name, split_sep by auto. now rewrite app_nil_r, rev_involutive. Qed.
Lemma split_concat h sep' names : names <> [] -> Forall (fun n => ~ In h (la n)) names ->
  split (h :: sep') (la (String.concat (string_of_list_ascii (h :: sep')) names)) = map la names.
Proof.
  intros Hne H. induction H as [|n names Hn H IH]; [easy|]. destruct names as [|n' names]; [now apply split_none|].
  change (String.concat (string_of_list_ascii (h :: sep')) (n :: n' :: names)) with
    (n ++ string_of_list_ascii (h :: sep') ++ String.concat (string_of_list_ascii (h :: sep')) (n' :: names))%string.
  rewrite !la_app, list_ascii_of_string_of_list_ascii, split_two by auto. now rewrite IH.
Qed.

(** ** Characters of names *)
Lemma plain_not c s : In c (la "()[], =?" ++ [newline]) -> plain_name s -> ~ In c (la s).
Proof. intros Hc [_ H] Hin. rewrite Forall_forall in H. now apply (H c Hin). Qed.
Lemma in_concat c sep names : In c (la (String.concat sep names)) -> In c (la sep) \/ exists n, In n names /\ In c (la n).
Proof.
  induction names as [|n names IH]; [easy|]. destruct names as [|n' names].
  - cbn [String.concat]. intros H. right. exists n. split; [now left|auto].
  - change (String.concat sep (n :: n' :: names)) with (n ++ sep ++ String.concat sep (n' :: names))%string. rewrite !la_app, !in_app_iff.
    intros [H|[H|H]]; [right; exists n; split; [now left|auto]|now left|]. destruct (IH H) as [|(k & Hk & Hc)]; [now left|]. right. exists k. split; [now right|auto].
Qed.

(** ** Strip *)
Lemma kwargs_concat ks : ks <> [] -> String.concat ", " (map (fun k => k ++ "=?")%string ks) = (String.concat "=?, " ks ++ "=?")%string.
Proof.
  intros Hne. induction ks as [|k ks IH]; [easy|]. destruct ks as [|k' ks]; [reflexivity|].
  change (map (fun k => k ++ "=?")%string (k :: k' :: ks)) with ((k ++ "=?")%string :: map (fun k => k ++ "=?")%string (k' :: ks)).
  cbn [map]. change (String.concat ", " ((k ++ "=?") :: (k' ++ "=?") :: map (fun k => k ++ "=?") ks)%string) with
    ((k ++ "=?") ++ ", " ++ String.concat ", " (map (fun k => k ++ "=?") (k' :: ks)))%string.
  rewrite IH by easy. change (String.concat "=?, " (k :: k' :: ks)) with (k ++ "=?, " ++ String.concat "=?, " (k' :: ks))%string.
  rewrite !append_assoc. reflexivity.
Qed.

Lemma lstrip_in chars p s : Forall (fun c => In c chars) p -> lstrip chars (p ++ s)%list = lstrip chars s.
Proof.
  induction 1 as [|c p Hc H IH]; [reflexivity|]. cbn [app lstrip]. assert (existsb (Ascii.eqb c) chars = true) as ->; auto.
  apply existsb_exists. exists c. split; auto. apply Ascii.eqb_refl.
Qed.
Lemma lstrip_out chars s : (forall c, hd_error s = Some c -> ~ In c chars) -> lstrip chars s = s.
Proof.
  destruct s as [|c s]; [reflexivity|]. intros H. cbn [lstrip]. destruct (existsb (Ascii.eqb c) chars) eqn:E; auto.
  apply existsb_exists in E as (d & Hd & Ed). apply Ascii.eqb_eq in Ed as <-. exfalso. now apply (H c).
Qed.
Lemma hd_concat sep k ks c : la k <> [] -> hd_error (la (String.concat sep (k :: ks))) = Some c -> In c (la k).
Proof.
  intros Hk H. assert (E : exists r, la (String.concat sep (k :: ks)) = (la k ++ r)%list).
  { destruct ks as [|k' ks]; [exists []; cbn [String.concat]; now rewrite app_nil_r|]. exists (la (sep ++ String.concat sep (k' :: ks))).
    now rewrite <- la_app. }
  destruct E as [r Er]. rewrite Er in H. destruct (la k) as [|d l]; [easy|]. cbn in H. injection H as ->. now left.
Qed.
Lemma last_concat sep ks c : ks <> [] -> Forall (fun k => la k <> []) ks -> hd_error (rev (la (String.concat sep ks))) = Some c -> exists k, In k ks /\ In c (la k).
Proof.
  intros Hne H. induction H as [|k ks Hk H IH]; [easy|]. destruct ks as [|k' ks].
  - cbn [String.concat]. intros E. exists k. split; [now left|]. apply in_rev. destruct (rev (la k)); [discriminate|]. cbn in E. injection E as ->. now left.
  - change (String.concat sep (k :: k' :: ks)) with (k ++ sep ++ String.concat sep (k' :: ks))%string. rewrite !la_app, !rev_app_distr.
    intros E. destruct (rev (la (String.concat sep (k' :: ks)))) as [|d l] eqn:Er.
    + exfalso. assert (Hnil : la (String.concat sep (k' :: ks)) = []) by (apply (f_equal (@rev ascii)) in Er; now rewrite rev_involutive in Er).
      inversion_clear H as [|? ? Hk' _]. apply Hk'. destruct ks as [|k'' ks]; [exact Hnil|].
      change (String.concat sep (k' :: k'' :: ks)) with (k' ++ sep ++ String.concat sep (k'' :: ks))%string in Hnil. rewrite !la_app in Hnil.
      now apply app_eq_nil in Hnil as [Hnil _].
    + cbn in E. injection E as ->. destruct (IH ltac:(easy) eq_refl) as (k2 & Hk2 & Hc). exists k2. split; [now right|auto].
Qed.
Lemma nonempty_la s : plain_name s -> la s <> [].
Proof. intros [H _]. now destruct s. Qed.
Lemma strip_kwargs ks : ks <> [] -> Forall plain_name ks ->
  strip (la "=?]") (la (String.concat ", " (map (fun k => k ++ "=?") ks) ++ "]")%string) = la (String.concat "=?, " ks).
Proof.
  intros Hne H. rewrite kwargs_concat, append_assoc, la_app by auto. unfold strip. set (body := la (String.concat "=?, " ks)).
  assert (Hhd : forall c, hd_error (body ++ la ("=?" ++ "]")) = Some c -> ~ In c (la "=?]")).
  { destruct ks as [|k ks']; [easy|]. intros c Hc Hin. inversion_clear H as [|? ? Hk _]. assert (Hck : In c (la k)).
    { apply (hd_concat "=?, " k ks'); [now apply nonempty_la|]. fold body. destruct body eqn:Eb; [|exact Hc]. exfalso. revert Eb. unfold body.
      pose proof (nonempty_la k Hk) as Hn. destruct ks' as [|k2 ks2]; [exact Hn|].
      change (String.concat "=?, " (k :: k2 :: ks2)) with (k ++ "=?, " ++ String.concat "=?, " (k2 :: ks2))%string. rewrite la_app. intros E. now apply app_eq_nil in E as [E _]. }
    revert Hck. apply plain_not; auto. cbn in *. tauto. }
  rewrite (lstrip_out _ _ Hhd). rewrite rev_app_distr. rewrite lstrip_in by (repeat (apply Forall_cons; [cbn; tauto|]); constructor).
  rewrite lstrip_out; [apply rev_involutive|]. intros c Hc Hin. apply last_concat in Hc as (k & Hk & Hck); auto.
  - rewrite Forall_forall in H. revert Hck. apply plain_not; [cbn in *; tauto|]. now apply H.
  - eapply Forall_impl; [|exact H]. apply nonempty_la.
Qed.

(** ** Search *)
Lemma search_name n s : ~ In "("%char n -> search_group (n ++ s)%list = search_group s.
Proof.
  induction n as [|c n IH]; intros H; [reflexivity|]. cbn [app search_group]. destruct (Ascii.eqb_spec c "(") as [->|]; [exfalso; apply H; now left|].
  apply IH. intros Hn. apply H. now right.
Qed.
Lemma line_of_app g s : ~ In newline g -> line_of (g ++ s)%list = (g ++ line_of s)%list.
Proof.
  induction g as [|c g IH]; intros H; [reflexivity|]. cbn [app line_of]. destruct (Ascii.eqb_spec c newline) as [->|]; [exfalso; apply H; now left|].
  now rewrite IH by (intros Hn; apply H; now right).
Qed.
Lemma up_to_last g : up_to_last_closing (g ++ [")"%char])%list = Some g.
Proof. induction g as [|c g IH]; [reflexivity|]. cbn [app up_to_last_closing]. now rewrite IH. Qed.

Lemma signature_chars args kwargs c : Forall plain_name args -> Forall plain_name kwargs -> In c (la (signature_of args kwargs)) -> c <> newline.
Proof.
  intros Ha Hk Hin ->. unfold signature_of, comma_separated in Hin. rewrite la_app, in_app_iff in Hin.
  assert (Hnl : forall l, Forall plain_name l -> forall n, In n l -> ~ In newline (la n)).
  { intros l Hl n Hn. rewrite Forall_forall in Hl. apply plain_not; auto. apply in_or_app. right. now left. }
  destruct Hin as [Hin|Hin].
  - apply in_concat in Hin as [Hin|(n & Hn & Hc)]; [cbn in Hin; intuition discriminate|]. now apply (Hnl args Ha n Hn).
  - destruct kwargs as [|k ks]; [easy|]. rewrite !la_app, !in_app_iff in Hin. destruct Hin as [Hin|[Hin|Hin]]; [cbn in Hin; intuition discriminate| |cbn in Hin; intuition discriminate].
    apply in_concat in Hin as [Hin|(n & Hn & Hc)]; [cbn in Hin; intuition discriminate|]. apply in_map_iff in Hn as (k' & <- & Hk').
    rewrite la_app, in_app_iff in Hc. destruct Hc as [Hc|Hc]; [now apply (Hnl (k :: ks) Hk k' Hk')|cbn in Hc; intuition discriminate].
Qed.
Lemma c57 (V : Type) d f name fname args kwargs more : get_ta_func V d name = Ok f -> ta_doc V f = Some (doc_of fname args kwargs more) ->
  plain_name fname -> args <> [] -> Forall plain_name args -> Forall plain_name kwargs -> further_lines more ->
  get_args_kwargs V d name = Ok (args, match kwargs with [] => None | _ => Some kwargs end).
Proof.
  intros Hf Hdoc Hn Hne Ha Hk Hmore. unfold get_args_kwargs. rewrite Hf. cbn [bind]. rewrite Hdoc. unfold doc_of. rewrite !la_app.
  rewrite search_name by (apply plain_not; auto; cbn; tauto). change (la "(") with ["("%char]. cbn [app search_group Ascii.eqb Bool.eqb].
  set (sg := signature_of args kwargs).
  assert (Hsg : la sg <> []).
  { unfold sg, signature_of. rewrite la_app. destruct args as [|a args']; [easy|]. inversion_clear Ha as [|? ? Haa _]. apply nonempty_la in Haa. unfold comma_separated.
    intros E. apply app_eq_nil in E as [E _]. revert E. destruct args' as [|b args']; [exact Haa|].
    change (String.concat ", " (a :: b :: args')) with (a ++ ", " ++ String.concat ", " (b :: args'))%string. rewrite la_app. intros E. now apply app_eq_nil in E as [E _]. }
  rewrite line_of_app by (intros Hin; now apply (signature_chars args kwargs newline Ha Hk Hin)).
  assert (El : line_of (la ")" ++ la more) = [")"%char]).
  { change (la ")") with [")"%char]. cbn [app line_of]. replace (Ascii.eqb ")" newline) with false by reflexivity. destruct Hmore as [->|[r ->]]; reflexivity. }
  rewrite El, up_to_last. destruct (la sg) as [|c0 sg'] eqn:Esg; [easy|]. rewrite <- Esg. clear El Hsg Esg c0 sg'.
  unfold sg, signature_of, parse_signature, comma_separated. cbv zeta.
  assert (Hargs : ~ In "["%char (la (String.concat ", " args))).
  { intros Hin. apply in_concat in Hin as [Hin|(n & Hin & Hc)]; [cbn in Hin; intuition discriminate|]. rewrite Forall_forall in Ha. revert Hc. apply plain_not; [cbn; tauto|auto]. }
  assert (Hsplit : map string_of_list_ascii (split (la ", ") (la (String.concat ", " args))) = args).
  { change (la ", ") with [","%char; " "%char]. change ", "%string with (string_of_list_ascii [","%char; " "%char]) at 1. rewrite split_concat; auto.
    - rewrite map_map. rewrite (map_ext _ (fun x => x)) by apply la_inv. apply map_id.
    - rewrite Forall_forall in *. intros n Hin. apply plain_not; [cbn; tauto|auto]. }
  destruct kwargs as [|k ks].
  - rewrite la_app. change (la "") with (@nil ascii). rewrite app_nil_r. change (la "[, ") with ["["%char; ","%char; " "%char]. rewrite split_none by auto. now rewrite Hsplit.
  - rewrite !la_app. change (la "[, ") with ["["%char; ","%char; " "%char]. rewrite split_two by auto. rewrite <- la_app.
    rewrite split_none.
    + rewrite Hsplit. rewrite strip_kwargs by (auto; easy). do 3 f_equal. change (la "=?, ") with ["="%char; "?"%char; ","%char; " "%char].
      change "=?, "%string with (string_of_list_ascii ["="%char; "?"%char; ","%char; " "%char]). rewrite split_concat; [|easy|].
      * rewrite map_map. rewrite (map_ext _ (fun x => x)) by apply la_inv. apply map_id.
      * rewrite Forall_forall in *. intros n Hin. apply plain_not; [cbn; tauto|auto].
    + rewrite la_app, in_app_iff. intros [Hin|Hin]; [|cbn in Hin; intuition discriminate].
      apply in_concat in Hin as [Hin|(n & Hin & Hc)]; [cbn in Hin; intuition discriminate|]. apply in_map_iff in Hin as (k' & <- & Hk').
      rewrite la_app, in_app_iff in Hc. destruct Hc as [Hc|Hc]; [|cbn in Hc; intuition discriminate].
      rewrite Forall_forall in Hk. revert Hc. apply plain_not; [cbn; tauto|auto].
Qed.

Lemma c57_two (V : Type) d f name fname args k1 k2 : get_ta_func V d name = Ok f ->
  ta_doc V f = Some (fname ++ "(" ++ comma_separated args ++ "[, " ++ k1 ++ "=?][, " ++ k2 ++ "=?])")%string ->
  plain_name fname -> Forall plain_name args -> plain_name k1 -> plain_name k2 -> get_args_kwargs V d name = Err ValueError.
Proof.
  intros Hf Hdoc Hn Ha H1 H2. unfold get_args_kwargs. rewrite Hf. cbn [bind]. rewrite Hdoc. rewrite !la_app.
  rewrite search_name by (apply plain_not; auto; cbn; tauto). change (la "(") with ["("%char]. cbn [app search_group Ascii.eqb Bool.eqb].
  assert (Hargs : forall c, In c (la "()[]=?" ++ [newline]) -> ~ In c (la (comma_separated args))).
  { intros c Hc Hin. unfold comma_separated in Hin. apply in_concat in Hin as [Hin|(n & Hin & Hx)]; [cbn in Hc, Hin; destruct Hin as [<-|[<-|[]]]; intuition discriminate|]. rewrite Forall_forall in Ha.
    revert Hx. apply plain_not; [cbn in *; tauto|auto]. }
  set (s := (la (comma_separated args) ++ la "[, " ++ (la k1 ++ la "=?]") ++ la "[, " ++ (la k2 ++ la "=?]"))%list).
  replace (la (comma_separated args) ++ la "[, " ++ la k1 ++ la "=?][, " ++ la k2 ++ la "=?])")%list with (s ++ [")"%char])%list
    by (unfold s; change (la "=?][, ") with (la "=?]" ++ la "[, ")%list; change (la "=?])") with (la "=?]" ++ [")"%char])%list; rewrite <- !app_assoc; reflexivity).
  assert (Nl : ~ In newline s).
  { unfold s. rewrite !in_app_iff. intros [H|[H|[[H|H]|[H|[H|H]]]]]; try (cbn in H; intuition discriminate).
    - revert H. apply Hargs. cbn; tauto.
    - revert H. apply plain_not; [cbn; tauto|exact H1].
    - revert H. apply plain_not; [cbn; tauto|exact H2]. }
  rewrite line_of_app by exact Nl. change (line_of [")"%char]) with [")"%char]. rewrite up_to_last. destruct s as [|c0 s0] eqn:Es; [unfold s in Es; apply app_eq_nil in Es as [_ Es]; discriminate|].
  rewrite <- Es. unfold s, parse_signature. cbv zeta. change (la "[, ") with ["["%char; ","%char; " "%char].
  rewrite split_two by (apply Hargs; cbn; tauto).
  assert (Hk : forall k, plain_name k -> ~ In "["%char (la k ++ la "=?]")%list).
  { intros k Pk. rewrite in_app_iff. intros [H|H]; [revert H; apply plain_not; [cbn; tauto|exact Pk]|cbn in H; intuition discriminate]. }
  rewrite split_two by now apply Hk. rewrite split_none by now apply Hk. reflexivity.
Qed.
