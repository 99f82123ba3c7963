(** Lemmas about paths. *)
From Coq Require Import Strings.String Strings.Ascii Lists.List Bool Arith Lia.
From Verif Require Import GoBase GoSpec GoFacts PathModel PathSpec WebProofs.
Import ListNotations.
Open Scope string_scope.

Definition loc_ok (l : location) : Prop :=
  (absolute l = true -> above l = 0) /\ Forall entry_name_ok (names l).

(** The kept segments, last first, for a location *)
Definition out_of (l : location) : list string := (rev (names l) ++ repeat ".." (above l))%list.

Definition step (l : location) (x : string) : location :=
  if String.eqb x "" || String.eqb x "." then l
  else if String.eqb x ".." then
    match rev (names l) with
    | [] => if absolute l then l else Location false (S (above l)) []
    | _ :: r => Location (absolute l) (above l) (rev r)
    end
  else Location (absolute l) (above l) (names l ++ [x]).

Lemma step_ok l x : loc_ok l -> free_of "/" x -> loc_ok (step l x).
Proof.
  intros [H1 H2] Hx. unfold step. destruct (String.eqb_spec x ""), (String.eqb_spec x "."); cbn; try (split; auto; fail).
  destruct (String.eqb_spec x "..").
  - destruct (rev (names l)) eqn:E; [destruct (absolute l) eqn:Ea|]; split; cbn; auto; try discriminate.
    apply Forall_rev in H2. rewrite E in H2. inversion H2; subst. now apply Forall_rev.
  - split; cbn; auto. apply Forall_app. split; auto. repeat constructor; auto.
Qed.

Lemma walk_step l x xs l' : loc_ok l -> free_of "/" x -> (walk l (x :: xs) l' <-> walk (step l x) xs l').
Proof.
  intros Hl Hx. destruct l as [abs up ns]. unfold step. split.
  - intros H. inversion H as [|? ? ? ? Hst|? ? ? n|? ? ?|? ? ?|? ? ? ? ? ? Hen]; subst; cbn.
    + destruct Hst as [->| ->]; cbn; auto.
    + rewrite rev_app_distr. cbn. now rewrite rev_involutive.
    + auto.
    + auto.
    + destruct Hen as (A & B & C & _).
      destruct (String.eqb_spec x ""), (String.eqb_spec x "."), (String.eqb_spec x ".."); try contradiction; cbn; auto.
  - destruct (String.eqb_spec x "") as [->|]; [intros; apply walk_stay; auto|].
    destruct (String.eqb_spec x ".") as [->|]; [intros; apply walk_stay; auto|]. cbn [orb].
    destruct (String.eqb_spec x "..") as [->|].
    + cbn [names absolute above]. destruct (rev ns) as [|y r] eqn:E.
      * apply (f_equal (@rev _)) in E. rewrite rev_involutive in E. cbn in E. subst ns.
        destruct abs; [|intros; now apply walk_up].
        destruct Hl as [H1 _]. cbn in H1. rewrite H1 by auto. intros. now apply walk_top.
      * apply (f_equal (@rev _)) in E. rewrite rev_involutive in E. cbn in E. subst ns. intros. now apply walk_back.
    + cbn. intros. apply walk_down; auto. repeat split; auto.
Qed.

Lemma walk_fold xs : forall l l', loc_ok l -> Forall (free_of "/") xs ->
  (walk l xs l' <-> l' = fold_left step xs l).
Proof.
  induction xs as [|x xs IH]; intros l l' Hl HF.
  - cbn. split; [intros H; now inversion H|intros ->; constructor].
  - inversion HF; subst. rewrite walk_step by auto. cbn. apply IH; auto. now apply step_ok.
Qed.

Lemma fold_step_ok xs : forall l, loc_ok l -> Forall (free_of "/") xs -> loc_ok (fold_left step xs l).
Proof.
  induction xs as [|x xs IH]; intros l Hl HF; cbn; auto. inversion HF; subst. apply IH; auto. now apply step_ok.
Qed.

Lemma step_abs l x : absolute (step l x) = absolute l.
Proof.
  unfold step. destruct (_ || _); auto. destruct (String.eqb x ".."); auto.
  destruct (rev (names l)); auto. destruct (absolute l) eqn:E; auto.
Qed.
Lemma fold_step_abs xs : forall l, absolute (fold_left step xs l) = absolute l.
Proof. induction xs as [|x xs IH]; intros l; cbn; auto. rewrite IH. apply step_abs. Qed.

Lemma clean_step l x : loc_ok l -> clean_segment (absolute l) (out_of l) x = out_of (step l x).
Proof.
  intros [H1 H2]. unfold clean_segment, step, out_of.
  destruct (String.eqb x "" || String.eqb x "."); auto.
  destruct (String.eqb x "..") eqn:Ex.
  - destruct (rev (names l)) as [|y r] eqn:E; cbn.
    + destruct (absolute l) eqn:Ea; cbn.
      * rewrite H1 by auto. cbn. rewrite E. reflexivity.
      * destruct (above l) eqn:Eu; cbn; reflexivity.
    + assert (Hy : entry_name_ok y). { apply Forall_rev in H2. rewrite E in H2. now inversion H2. }
      destruct Hy as (_ & _ & Hy & _). destruct (String.eqb_spec y ".."); [contradiction|]. now rewrite rev_involutive.
  - cbn. rewrite rev_app_distr. reflexivity.
Qed.
Lemma clean_fold xs : forall l, loc_ok l -> Forall (free_of "/") xs ->
  fold_left (clean_segment (absolute l)) xs (out_of l) = out_of (fold_left step xs l).
Proof.
  induction xs as [|x xs IH]; intros l Hl HF; cbn; auto. inversion HF; subst.
  rewrite clean_step by auto. rewrite <- (step_abs l x). apply IH; auto. now apply step_ok.
Qed.

(** The text of a location *)
Definition segs_of (l : location) : list string := (repeat ".." (above l) ++ names l)%list.
Definition text (l : location) : string :=
  if absolute l then "/" ++ String.concat "/" (segs_of l)
  else match segs_of l with [] => "." | s => String.concat "/" s end.

Lemma rev_out l : rev (out_of l) = segs_of l.
Proof.
  unfold out_of, segs_of. rewrite rev_app_distr, rev_involutive. f_equal.
  generalize (above l) as n. induction n as [|n IH]; auto. cbn. rewrite IH.
  clear IH. induction n; cbn; auto. now rewrite IHn.
Qed.

Definition origin (s : string) : location := Location (is_rooted s) 0 [].
Lemma origin_ok s : loc_ok (origin s).
Proof. split; cbn; auto. Qed.
Definition place (s : string) : location := fold_left step (split "/" s) (origin s).

Lemma place_ok s : loc_ok (place s).
Proof. apply fold_step_ok; [apply origin_ok|apply split_free]. Qed.
Lemma clean_text s : clean s = text (place s).
Proof.
  unfold clean, place, text.
  pose proof (clean_fold (split "/" s) (origin s) (origin_ok s) (split_free "/" s)) as H.
  change (absolute (origin s)) with (is_rooted s) in H. change (out_of (origin s)) with (@nil string) in H. rewrite H.
  rewrite fold_step_abs. change (absolute (origin s)) with (is_rooted s). rewrite rev_out.
  now destruct (segs_of (fold_left step (split "/" s) (origin s))).
Qed.

Lemma leads_to_iff s l : leads_to s l <-> l = place s.
Proof.
  unfold leads_to, place. split.
  - intros (segs & Hn & HF & -> & H). rewrite split_concat by auto.
    destruct H as [[(r & E) H]|[E H]].
    + apply walk_fold in H; auto; [|split; cbn; auto]. unfold origin. rewrite E in *. cbn. exact H.
    + apply walk_fold in H; auto; [|split; cbn; auto]. unfold origin. subst l. f_equal. f_equal.
      destruct (String.concat "/" segs) as [|c r]; auto. cbn. destruct (Ascii.eqb_spec c "/") as [->|]; auto. exfalso. now apply (E r).
  - intros ->. exists (split "/" s). split; [apply split_nonnil|]. split; [apply split_free|]. split; [symmetry; apply concat_split|].
    unfold origin. destruct s as [|c r]; cbn [is_rooted].
    + right. split; [discriminate|]. apply walk_fold; auto using split_free. split; cbn; auto.
    + destruct (Ascii.eqb_spec c "/") as [->|Hc].
      * left. split; [exists r; reflexivity|]. apply walk_fold; auto using split_free. split; cbn; auto.
      * right. split; [intros r' [= E _]; contradiction|]. apply walk_fold; auto using split_free. split; cbn; auto.
Qed.

(** The text of a place leads to it *)
Lemma fold_ups n : forall u, fold_left step (repeat ".." n) (Location false u []) = Location false (n + u) [].
Proof. induction n as [|n IH]; intros u; cbn; auto. rewrite IH. f_equal. lia. Qed.
Lemma fold_names ns : forall abs up ms, Forall entry_name_ok ns ->
  fold_left step ns (Location abs up ms) = Location abs up (ms ++ ns).
Proof.
  induction ns as [|n ns IH]; intros abs up ms HF; cbn; [now rewrite app_nil_r|].
  inversion HF; subst. destruct H1 as (A & B & C & _). unfold step at 2.
  destruct (String.eqb_spec n ""), (String.eqb_spec n "."), (String.eqb_spec n ".."); try contradiction. cbn.
  rewrite IH by auto. now rewrite <- app_assoc.
Qed.
Lemma fold_segs l : loc_ok l -> fold_left step (segs_of l) (Location (absolute l) 0 []) = l.
Proof.
  intros [H1 H2]. unfold segs_of. rewrite fold_left_app. destruct l as [abs up ns]. cbn in *.
  destruct abs.
  - rewrite H1 by auto. cbn. now rewrite fold_names.
  - rewrite fold_ups, Nat.add_0_r. now rewrite fold_names.
Qed.
Lemma segs_free l : loc_ok l -> Forall (free_of "/") (segs_of l).
Proof.
  intros [_ H]. unfold segs_of. apply Forall_app. split.
  - induction (above l); constructor; auto. cbn. repeat split; discriminate.
  - eapply Forall_impl; [|exact H]. now intros a (_ & _ & _ & Ha).
Qed.
Lemma segs_nonempty l : loc_ok l -> Forall (fun x => x <> "") (segs_of l).
Proof.
  intros [_ H]. unfold segs_of. apply Forall_app. split.
  - induction (above l); constructor; auto. discriminate.
  - eapply Forall_impl; [|exact H]. now intros a (Ha & _).
Qed.
Lemma split_text_rel l : loc_ok l -> absolute l = false ->
  split "/" (text l) = match segs_of l with [] => ["."] | s => s end.
Proof.
  intros Hl Ha. unfold text. rewrite Ha. destruct (segs_of l) as [|x xs] eqn:E; [reflexivity|].
  apply split_concat; [discriminate|]. rewrite <- E. now apply segs_free.
Qed.
Lemma text_rooted l : loc_ok l -> is_rooted (text l) = absolute l.
Proof.
  intros Hl. unfold text. destruct (absolute l) eqn:Ha; [reflexivity|].
  destruct (segs_of l) as [|x xs] eqn:E; [reflexivity|].
  pose proof (segs_free l Hl) as HF. pose proof (segs_nonempty l Hl) as HN. rewrite E in *.
  inversion HF; inversion HN; subst. destruct x as [|c x]; [contradiction|]. cbn in H1.
  destruct xs; cbn; destruct (Ascii.eqb_spec c "/"); tauto.
Qed.
Lemma place_text l : loc_ok l -> place (text l) = l.
Proof.
  intros Hl. unfold place, origin. rewrite text_rooted by auto.
  pose proof (fold_segs l Hl) as HS. etransitivity; [|exact HS].
  destruct (absolute l) eqn:Ha.
  - unfold text. rewrite Ha. destruct (segs_of l) as [|x xs] eqn:E; [reflexivity|].
    change ("/" ++ String.concat "/" (x :: xs)) with ("" ++ String "/" (String.concat "/" (x :: xs))).
    rewrite split_app by exact I. rewrite split_concat; [|discriminate|rewrite <- E; now apply segs_free].
    reflexivity.
  - rewrite split_text_rel by auto. destruct (segs_of l); reflexivity.
Qed.
Lemma text_nonempty l : loc_ok l -> nonempty (text l) = true.
Proof.
  intros Hl. unfold text. destruct (absolute l); [reflexivity|]. pose proof (segs_nonempty l Hl) as H.
  destruct (segs_of l) as [|x xs]; [reflexivity|]. inversion H; subst. destruct x; [contradiction|]. destruct xs; reflexivity.
Qed.

Lemma split_glue a b : split "/" (a ++ String "/" b) = (split "/" a ++ split "/" b)%list.
Proof.
  induction a as [|c a IH]; cbn [append]; [reflexivity|]. cbn [split].
  destruct (Ascii.eqb_spec c "/") as [->|Hc]; [now rewrite IH|]. rewrite IH.
  pose proof (split_nonnil "/" a). destruct (split "/" a); [contradiction|]. reflexivity.
Qed.
Lemma rooted_glue a b : a <> "" -> is_rooted (a ++ b) = is_rooted a.
Proof. destruct a; [contradiction|reflexivity]. Qed.

Lemma place_glue a b : a <> "" -> place (a ++ String "/" b) = fold_left step (split "/" b) (place a).
Proof.
  intros Ha. unfold place, origin. rewrite rooted_glue by auto. now rewrite split_glue, fold_left_app.
Qed.

(** Joining one segment to a nonempty path *)
Lemma join2 l x : loc_ok l -> free_of "/" x -> join [text l; x] = text (step l x).
Proof.
  intros Hl Hx. unfold join. cbn [filter]. rewrite text_nonempty by auto.
  assert (Hne : text l <> ""). { pose proof (text_nonempty l Hl). intros E. rewrite E in *. discriminate. }
  destruct (nonempty x) eqn:En.
  - rewrite clean_text. f_equal. change (String.concat "/" [text l; x]) with (text l ++ String "/" x).
    rewrite place_glue by auto. rewrite split_free_one by auto. cbn. now rewrite place_text.
  - apply nonempty_false in En as ->. rewrite clean_text. f_equal. change (String.concat "/" [text l]) with (text l).
    rewrite place_text by auto. reflexivity.
Qed.
Lemma join_all xs : forall l, loc_ok l -> Forall (free_of "/") xs ->
  fold_left (fun d s => join [d; s]) xs (text l) = text (fold_left step xs l).
Proof.
  induction xs as [|x xs IH]; intros l Hl HF; cbn; auto. inversion HF; subst. rewrite join2 by auto. apply IH; auto. now apply step_ok.
Qed.

Lemma place_name x : entry_name_ok x -> place x = Location false 0 [x].
Proof.
  intros (A & B & C & D). unfold place. rewrite split_free_one by auto. cbn [fold_left]. unfold step, origin.
  destruct (String.eqb_spec x ""), (String.eqb_spec x "."), (String.eqb_spec x ".."); try contradiction. cbn.
  destruct x as [|c x]; [contradiction|]. cbn in *. destruct (Ascii.eqb_spec c "/"); tauto.
Qed.
Lemma text_name x : entry_name_ok x -> text (Location false 0 [x]) = x.
Proof. reflexivity. Qed.

(** Where the file of a URL is *)
Lemma url_place parse gts s u : parse s = Ok u -> entry_name_ok (uScheme u) -> free_of "/" (uHostname u) -> uHostname u <> "" ->
  exists f, url_to_filename parse gts s = Ok f /\
    place f = fold_left step (segs_of (fold_left step (split "/" (uPath u)) (step (Location false 0 [uScheme u]) (uHostname u))))
                (step (place gts) "concepts").
Proof.
  intros E Hs Hh Hn. unfold url_to_filename. rewrite E. cbn [bind].
  assert (Hns : nonempty (uScheme u) = true) by (destruct Hs as (A & _); now destruct (uScheme u)).
  assert (Hnh : nonempty (uHostname u) = true) by now destruct (uHostname u).
  rewrite Hns, Hnh. cbn [negb]. eexists. split; [reflexivity|].
  set (l0 := Location false 0 [uScheme u]).
  assert (Hl0 : loc_ok l0) by (split; cbn; [discriminate|repeat constructor; apply Hs]).
  replace (join [uScheme u; uHostname u]) with (text (step l0 (uHostname u))) by (symmetry; exact (join2 l0 (uHostname u) Hl0 Hh)).
  assert (Hl1 : loc_ok (step l0 (uHostname u))) by now apply step_ok.
  rewrite join_all by auto using split_free.
  set (ld := fold_left step (split "/" (uPath u)) (step l0 (uHostname u))).
  assert (Hld : loc_ok ld) by (apply fold_step_ok; auto using split_free).
  assert (Had : absolute ld = false). { unfold ld. rewrite fold_step_abs, step_abs. reflexivity. }
  assert (Hrest : forall l, fold_left step (split "/" (text ld)) l = fold_left step (segs_of ld) l).
  { intros l. rewrite split_text_rel by auto. destruct (segs_of ld); reflexivity. }
  pose proof (text_nonempty ld Hld) as Hd. set (d := text ld) in *.
  assert (Hc : place (String.concat "/" ["concepts"; d]) = fold_left step (split "/" d) (Location false 0 ["concepts"])).
  { change (String.concat "/" ["concepts"; d]) with ("concepts" ++ String "/" d). now rewrite place_glue by discriminate. }
  unfold join. cbn [filter]. rewrite Hd. destruct (nonempty gts) eqn:Eg.
  - change (nonempty "concepts") with true. cbn iota. rewrite clean_text, place_text by apply place_ok.
    change (String.concat "/" [gts; "concepts"; d]) with (gts ++ String "/" ("concepts" ++ String "/" d)).
    rewrite place_glue by (intros ->; discriminate). rewrite split_glue, fold_left_app, Hrest. reflexivity.
  - change (nonempty "concepts") with true. cbn iota. apply nonempty_false in Eg as ->.
    rewrite clean_text, place_text by apply place_ok. rewrite Hc, Hrest. reflexivity.
Qed.

Lemma path_names_iff p ns : path_names p ns <->
  ns = filter (fun x => negb (String.eqb x "" || String.eqb x ".")) (split "/" p).
Proof.
  unfold path_names. split.
  - intros (segs & Hn & HF & -> & ->). now rewrite split_concat.
  - intros ->. exists (split "/" p). split; [apply split_nonnil|]. split; [apply split_free|]. split; auto. symmetry. apply concat_split.
Qed.
Lemma no_parent_iff p : no_parent p <-> ~ In ".." (split "/" p).
Proof.
  unfold no_parent. split.
  - intros H Hi. apply (H _ (proj2 (path_names_iff p _) eq_refl)). apply filter_In. split; auto.
  - intros H ns Hns Hi. apply path_names_iff in Hns. subst ns. apply filter_In in Hi. tauto.
Qed.

Lemma fold_no_parent xs : forall l, Forall (free_of "/") xs -> ~ In ".." xs ->
  fold_left step xs l = below l (filter (fun x => negb (String.eqb x "" || String.eqb x ".")) xs).
Proof.
  induction xs as [|x xs IH]; intros l HF Hn; cbn.
  - unfold below. rewrite app_nil_r. now destruct l.
  - inversion HF; subst. rewrite IH by (auto; intros Hi; apply Hn; now right). unfold step.
    destruct (String.eqb x "" || String.eqb x ".") eqn:E; cbn [negb]; auto.
    destruct (String.eqb_spec x ".."); [exfalso; apply Hn; now left|]. unfold below. cbn. now rewrite <- app_assoc.
Qed.

Lemma url_place_partial parse gts s u ns : parse s = Ok u ->
  entry_name_ok (uScheme u) -> entry_name_ok (uHostname u) -> no_parent (uPath u) -> path_names (uPath u) ns ->
  exists f, url_to_filename parse gts s = Ok f /\
    place f = below (place gts) ("concepts" :: uScheme u :: uHostname u :: ns).
Proof.
  intros E Hs Hh Hp Hns. assert (Hh' := Hh). destruct Hh' as (A & B & C & D).
  destruct (url_place parse gts s u E Hs D A) as (f & Hf & Hpl). exists f. split; auto. rewrite Hpl.
  apply no_parent_iff in Hp. apply path_names_iff in Hns.
  rewrite (fold_no_parent (split "/" (uPath u))) by auto using split_free. rewrite <- Hns.
  assert (Hstep : step (Location false 0 [uScheme u]) (uHostname u) = Location false 0 [uScheme u; uHostname u]).
  { unfold step. destruct (String.eqb_spec (uHostname u) ""), (String.eqb_spec (uHostname u) "."), (String.eqb_spec (uHostname u) ".."); try contradiction. reflexivity. }
  rewrite Hstep. unfold below at 1. cbn [absolute above names app]. unfold segs_of. cbn [above repeat names app].
  assert (Hok : Forall entry_name_ok ns).
  { rewrite Hns. apply Forall_forall. intros x Hx. apply filter_In in Hx as [Hx Hb].
    pose proof (split_free "/" (uPath u)) as HF. rewrite Forall_forall in HF. specialize (HF x Hx).
    destruct (String.eqb_spec x ""), (String.eqb_spec x "."); try discriminate. repeat split; auto. intros ->. contradiction. }
  assert (Hall : Forall entry_name_ok (uScheme u :: uHostname u :: ns)) by (constructor; [exact Hs|constructor; [exact Hh|exact Hok]]).
  change (step (place gts) "concepts") with (Location (absolute (place gts)) (above (place gts)) (names (place gts) ++ ["concepts"])).
  rewrite fold_names by exact Hall. unfold below. now rewrite <- app_assoc.
Qed.

Lemma dir_base d x : free_of "/" x -> dir_part (d ++ String "/" x) = d ++ "/".
Proof.
  intros Hx. induction d as [|c d IH].
  - cbn. assert (E : dir_part x = ""). { destruct x as [|c x]; auto. cbn [dir_part]. now rewrite (proj2 (has_char_false_iff "/" (String c x)) Hx). }
    now rewrite E.
  - cbn [append dir_part]. rewrite IH.
    replace (has_char "/" (String c (d ++ String "/" x))) with true; [reflexivity|].
    symmetry. change (String c (d ++ String "/" x)) with (String c d ++ String "/" x). rewrite has_char_app. cbn. apply orb_true_r.
Qed.

(** ** The last segment *)
Lemma filter_nonempty_all xs : Forall (fun x => x <> "") xs -> filter nonempty xs = xs.
Proof. induction 1 as [|x xs Hx HF IH]; cbn; auto. destruct x; [contradiction|]. cbn. now rewrite IH. Qed.
Lemma last_snoc {A} (xs : list A) x d : last (xs ++ [x]) d = x.
Proof. induction xs as [|y xs IH]; cbn; auto. rewrite IH. destruct xs; auto. Qed.
Lemma head_last xs (x : string) : match (xs ++ [x])%list with [] => "/" | s :: r => last r s end = x.
Proof. destruct xs as [|y xs]; cbn; auto. apply last_snoc. Qed.
Lemma concat_snoc xs x : xs <> [] -> String.concat "/" (xs ++ [x]) = String.concat "/" xs ++ String "/" x.
Proof.
  induction xs as [|y xs IH]; intros H; [contradiction|]. destruct xs as [|z xs].
  - reflexivity.
  - change (String.concat "/" ((y :: z :: xs) ++ [x])) with (y ++ "/" ++ String.concat "/" ((z :: xs) ++ [x])).
    rewrite IH by discriminate. change (String.concat "/" (y :: z :: xs)) with (y ++ "/" ++ String.concat "/" (z :: xs)).
    now rewrite !app_assoc'.
Qed.

Lemma split_text_filter l : loc_ok l -> segs_of l <> [] -> filter nonempty (split "/" (text l)) = segs_of l.
Proof.
  intros Hl Hn. destruct (absolute l) eqn:Ha.
  - unfold text. rewrite Ha. change ("/" ++ String.concat "/" (segs_of l)) with ("" ++ String "/" (String.concat "/" (segs_of l))).
    rewrite split_app by exact I. rewrite split_concat by auto using segs_free. cbn. now apply filter_nonempty_all, segs_nonempty.
  - rewrite split_text_rel by auto. destruct (segs_of l) as [|x xs] eqn:E; [contradiction|]. rewrite <- E.
    now apply filter_nonempty_all, segs_nonempty.
Qed.

Lemma base_text l xs x : loc_ok l -> segs_of l = (xs ++ [x])%list -> base (text l) = x.
Proof.
  intros Hl E. unfold base. pose proof (text_nonempty l Hl) as Hn.
  assert (Hf : filter nonempty (split "/" (text l)) = (xs ++ [x])%list) by (rewrite split_text_filter, E; auto; rewrite E; now destruct xs).
  destruct (text l) eqn:Et; [discriminate|]. rewrite <- Et in *. rewrite Hf. apply head_last.
Qed.

Lemma free_dir_part x : free_of "/" x -> dir_part x = "".
Proof. destruct x as [|c x]; auto. intros H. cbn [dir_part]. now rewrite (proj2 (has_char_false_iff "/" (String c x)) H). Qed.

Lemma rejoin l : loc_ok l -> join [dir_part (text l); base (text l)] = text l.
Proof.
  intros Hl. destruct (segs_of l) as [|a b] eqn:E using rev_ind.
  - unfold text. rewrite E. destruct (absolute l); reflexivity.
  - clear IHb. rename a into x. rename b into xs.
    rewrite (base_text l xs x Hl E).
    pose proof (segs_free l Hl) as HF. pose proof (segs_nonempty l Hl) as HN. rewrite E in HF, HN.
    apply Forall_app in HF as [HF Hx]. inversion Hx as [|? ? Hxf _]; subst. clear Hx.
    apply Forall_app in HN as [HN Hx]. inversion Hx as [|? ? Hxn _]; subst. clear Hx.
    assert (Hnx : nonempty x = true) by now destruct x.
    assert (Hcase : text l = x \/ exists p, text l = p ++ String "/" x).
    { unfold text. rewrite E. destruct (absolute l).
      - right. destruct xs as [|y xs]; [exists ""; reflexivity|]. exists ("/" ++ String.concat "/" (y :: xs)).
        rewrite concat_snoc by discriminate. now rewrite <- app_assoc'.
      - destruct xs as [|y xs]; [left; reflexivity|]. right. exists (String.concat "/" (y :: xs)).
        cbn [app]. now rewrite <- concat_snoc by discriminate. }
    destruct Hcase as [Ht|(p & Ht)].
    + rewrite Ht at 1. rewrite free_dir_part by auto. unfold join. cbn [filter nonempty]. rewrite Hnx.
      rewrite clean_text. change (String.concat "/" [x]) with x. rewrite <- Ht at 1. now rewrite place_text.
    + rewrite Ht at 1. rewrite dir_base by auto. unfold join. cbn [filter]. rewrite Hnx.
      replace (nonempty (p ++ "/")) with true by now destruct p.
      change (String.concat "/" [p ++ "/"; x]) with ((p ++ "/") ++ String "/" x).
      rewrite clean_text, place_glue by now destruct p. f_equal.
      transitivity (place (text l)); [|now apply place_text]. rewrite Ht.
      rewrite split_free_one by auto. destruct p as [|c p].
      * unfold place, origin. cbn [append is_rooted]. change (split "/" (String "/" x)) with ("" :: split "/" x). rewrite (split_free_one "/" x Hxf). reflexivity.
      * change "/" with (String "/" "") at 1. rewrite !(place_glue (String c p)) by discriminate.
        rewrite (split_free_one "/" x Hxf). reflexivity.
Qed.

Lemma url_text parse gts s f : url_to_filename parse gts s = Ok f -> exists l, loc_ok l /\ f = text l.
Proof.
  unfold url_to_filename. destruct (parse s) as [u| |]; cbn [bind]; try discriminate.
  destruct (negb (nonempty (uScheme u))); try discriminate. destruct (negb (nonempty (uHostname u))); try discriminate.
  intros [= <-]. unfold join at 1.
  set (d := fold_left _ _ _). cbn [filter]. change (nonempty "concepts") with true. cbn iota.
  destruct (nonempty gts), (nonempty d); eexists; split; try (apply clean_text); apply place_ok.
Qed.
