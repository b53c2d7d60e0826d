(** C41: connection strings. *)
From Verif Require Import Base ConnSpec ConnStrSpec ConnStrProofs.
Local Open Scope string_scope.

(** ** Which backend *)

(** The url crate accepts a string exactly if it names a scheme and the rest is
    acceptable; it reports that scheme. *)
Theorem C41_scheme_found after s scheme :
  url_parse after s = inl scheme <-> exists rest, has_scheme s scheme rest /\ after scheme rest = None.
Proof.
  unfold url_parse. destruct (url_scheme s) as [[x r]|] eqn:E.
  - apply url_scheme_iff in E. destruct (after x r) as [e|] eqn:A.
    + split; [discriminate|]. intros (rest & H & A'). apply url_scheme_iff in H, E. rewrite H in E.
      injection E as -> ->. congruence.
    + split; [intros [= ->]; eauto|]. intros (rest & H & A'). apply url_scheme_iff in H, E. congruence.
  - split; [discriminate|]. intros (rest & H & A). apply url_scheme_iff in H. congruence.
Qed.
Print Assumptions C41_scheme_found.

(** URLs: the scheme decides; what follows the scheme is preserved. *)
Theorem C41_url after s scheme : url_parse after s = inl scheme ->
  let c := try_from after s in
  (scheme = "sqlite" -> backend_name c = "sqlite" /\ forall rest, s = "sqlite:" ++ rest -> conn_str c = "file:" ++ rest) /\
  (scheme = "file" -> backend_name c = "sqlite" /\ conn_str c = s) /\
  (scheme = "postgres" \/ scheme = "postgresql" -> backend_name c = "pg" /\ conn_str c = s) /\
  (scheme = "libsql" -> backend_name c = "turso" /\ forall rest, s = "libsql:" ++ rest -> conn_str c = "turso:" ++ rest) /\
  (~ In scheme ["sqlite"; "file"; "postgres"; "postgresql"; "libsql"] -> backend_name c = scheme /\ conn_str c = s).
Proof.
  intros H c. unfold c, try_from. rewrite H. clear c H.
  split; [intros ->; split; [reflexivity|intros rest ->; apply replace_prefix]|].
  split; [intros ->; split; reflexivity|].
  split; [intros [-> | ->]; split; reflexivity|].
  split; [intros ->; split; [reflexivity|intros rest ->; apply replace_prefix]|].
  intros N. cbn [In] in N.
  destruct (String.eqb_spec scheme "sqlite"); [exfalso; subst; tauto|].
  destruct (String.eqb_spec scheme "file"); [exfalso; subst; tauto|].
  destruct (String.eqb_spec scheme "postgres"); [exfalso; subst; tauto|].
  destruct (String.eqb_spec scheme "postgresql"); [exfalso; subst; tauto|].
  destruct (String.eqb_spec scheme "libsql"); [exfalso; subst; tauto|]. split; reflexivity.
Qed.
Print Assumptions C41_url.

Definition any_rest : string -> string -> option url_error := fun _ _ => None.
Example C41_url_case :
  try_from any_rest "sqlite://db/app.sqlite?mode=ro" = {| backend_name := "sqlite"; conn_str := "file://db/app.sqlite?mode=ro" |} /\
  try_from any_rest "postgresql://me@db/app" = {| backend_name := "pg"; conn_str := "postgresql://me@db/app" |} /\
  try_from any_rest "libsql://sqlite:8080" = {| backend_name := "turso"; conn_str := "turso://sqlite:8080" |} /\
  try_from any_rest "mysql://h" = {| backend_name := "mysql"; conn_str := "mysql://h" |} /\
  has_scheme "sqlite:a.db" "sqlite" "a.db".
Proof.
  repeat split; try reflexivity. apply url_scheme_iff. reflexivity.
Qed.

(** Without a scheme: a string with one of PostgreSQL's keys is for PostgreSQL,
    any other for SQLite, and the string is kept. *)
Theorem C41_no_scheme after s : (forall scheme rest, ~ has_scheme s scheme rest) ->
  conn_str (try_from after s) = s /\
  (~ has_slashes s /\ names_key s -> backend_name (try_from after s) = "pg") /\
  (has_slashes s \/ ~ names_key s -> backend_name (try_from after s) = "sqlite").
Proof.
  intros N. unfold try_from, url_parse. destruct (url_scheme s) as [[x r]|] eqn:E.
  { apply url_scheme_iff in E. exfalso. exact (N _ _ E). }
  destruct (is_pg_key_value_pairs s) eqn:K; (split; [reflexivity|split]).
  - reflexivity.
  - apply kv_iff in K. tauto.
  - intros H. apply kv_iff in H. congruence.
  - reflexivity.
Qed.
Print Assumptions C41_no_scheme.
Example C41_no_scheme_case after :
  backend_name (try_from after "host=localhost user = me") = "pg" /\ backend_name (try_from after ":memory:") = "sqlite" /\
  backend_name (try_from after "data/app.db") = "sqlite" /\ names_key "host=localhost user = me" /\
  (forall scheme rest, ~ has_scheme "host=localhost user = me" scheme rest).
Proof.
  repeat split; try reflexivity.
  - apply key_somewhere_iff. reflexivity.
  - intros sch rest H. apply url_scheme_iff in H. discriminate.
Qed.

(** A string that names a scheme but is not an acceptable URL is for PostgreSQL if
    only the port is wrong and it starts with [postgres] (several hosts), or by its
    keys; it is kept. *)
Theorem C41_unacceptable after s scheme rest e : has_scheme s scheme rest -> after scheme rest = Some e ->
  conn_str (try_from after s) = s /\
  (backend_name (try_from after s) = "pg" <->
     match e with InvalidPort => exists r, s = "postgres" ++ r | OtherUrlError => ~ has_slashes s /\ names_key s end) /\
  (backend_name (try_from after s) = "pg" \/ backend_name (try_from after s) = "sqlite").
Proof.
  intros H A. apply url_scheme_iff in H. unfold try_from, url_parse. rewrite H, A. destruct e.
  - assert (starts_with s "postgres" = true <-> exists r, s = "postgres" ++ r) as P.
    { unfold starts_with. generalize "postgres" as p. clear. intros p. revert s. induction p as [|a p IH]; intros s.
      - split; [intros _; exists s; reflexivity|destruct s; reflexivity].
      - destruct s as [|b s]; [split; [discriminate|intros (r & R); discriminate]|]. cbn [prefix].
        destruct (ascii_dec a b) as [->|Nab].
        + rewrite IH. split; intros (r & R); exists r; cbn in *; congruence.
        + split; [discriminate|]. intros (r & R). cbn in R. congruence. }
    rewrite <- P. destruct (starts_with s "postgres"); cbn; repeat split; auto; discriminate.
  - rewrite <- kv_iff. destruct (is_pg_key_value_pairs s); cbn; repeat split; auto; discriminate.
Qed.
Print Assumptions C41_unacceptable.

(** In every case the text is kept, except for one replacement of the scheme. *)
Theorem C41_text_kept after s :
  conn_str (try_from after s) = s \/
  (exists a b, s = a ++ "sqlite:" ++ b /\ conn_str (try_from after s) = a ++ "file:" ++ b /\ backend_name (try_from after s) = "sqlite") \/
  (exists a b, s = a ++ "libsql:" ++ b /\ conn_str (try_from after s) = a ++ "turso:" ++ b /\ backend_name (try_from after s) = "turso").
Proof.
  assert (R : forall p q, replace_first p q s = s \/ exists a b, s = a ++ p ++ b /\ replace_first p q s = a ++ q ++ b).
  { intros p q. destruct (contains p s) eqn:E.
    - destruct (replace_some p q s E) as (a & b & H1 & H2 & _). eauto.
    - left. apply replace_none. assumption. }
  unfold try_from. destruct (url_parse after s) as [x|[]].
  - destruct (String.eqb x "sqlite").
    { destruct (R "sqlite:" "file:") as [H|(a & b & H1 & H2)]; [left; exact H|right; left; exists a, b; auto]. }
    destruct (String.eqb x "file"); [left; reflexivity|].
    destruct (String.eqb x "postgres" || String.eqb x "postgresql")%bool; [left; reflexivity|].
    destruct (String.eqb x "libsql"); [|left; reflexivity].
    destruct (R "libsql:" "turso:") as [H|(a & b & H1 & H2)]; [left; exact H|right; right; exists a, b; auto].
  - destruct (starts_with s "postgres"); left; reflexivity.
  - destruct (is_pg_key_value_pairs s); left; reflexivity.
Qed.
Print Assumptions C41_text_kept.

(** Connecting passes the kept text to the backend of that name, or reports that
    there is none. *)
Theorem C41_connect c :
  (forall b text, connect c = Ok (b, text) <->
     text = conn_str c /\
     (backend_name c = "pg" /\ b = BPg \/ backend_name c = "sqlite" /\ b = BSqlite \/ backend_name c = "turso" /\ b = BTurso)) /\
  (~ In (backend_name c) ["pg"; "sqlite"; "turso"] -> connect c = Err (UnknownBackend (backend_name c))).
Proof.
  unfold connect, get_backend. cbn [In].
  destruct (String.eqb_spec (backend_name c) "pg") as [E1|E1].
  { split; [|intros N; exfalso; apply N; rewrite ?E1, ?E2, ?E3; tauto]. intros b t. split.
    - intros [= <- <-]. auto.
    - intros (-> & [(_ & ->)|[(E & _)|(E & _)]]); [reflexivity|rewrite E in E1; discriminate..]. }
  destruct (String.eqb_spec (backend_name c) "sqlite") as [E2|E2].
  { split; [|intros N; exfalso; apply N; rewrite ?E1, ?E2, ?E3; tauto]. intros b t. split.
    - intros [= <- <-]. auto.
    - intros (-> & [(E & _)|[(_ & ->)|(E & _)]]); [tauto|reflexivity|rewrite E in E2; discriminate]. }
  destruct (String.eqb_spec (backend_name c) "turso") as [E3|E3].
  { split; [|intros N; exfalso; apply N; rewrite ?E1, ?E2, ?E3; tauto]. intros b t. split.
    - intros [= <- <-]. auto.
    - intros (-> & [(E & _)|[(E & _)|(_ & ->)]]); [tauto..|reflexivity]. }
  split; [|reflexivity]. intros b t. split; [discriminate|]. tauto.
Qed.
Print Assumptions C41_connect.

(** *** Where routing goes wrong *)

(** Schemes are compared without case, but replaced with case: an upper-case
    [SQLITE:] is left in the text given to SQLite, and a later [sqlite:] in the text
    is replaced instead. *)
Theorem C41_upper_case_refuted :
  exists s rest, has_scheme s "sqlite" rest /\ backend_name (try_from any_rest s) = "sqlite" /\
    conn_str (try_from any_rest s) = "SQLITE:copy-of-file:app" /\ s = "SQLITE:copy-of-sqlite:app".
Proof.
  exists "SQLITE:copy-of-sqlite:app", "copy-of-sqlite:app". repeat split; try reflexivity. apply url_scheme_iff. reflexivity.
Qed.
Print Assumptions C41_upper_case_refuted.

(** A path that starts with a drive letter is taken for a URL: no backend has that
    name. *)
Theorem C41_drive_letter_refuted :
  connect (try_from any_rest "C:/data/app.db") = Err (UnknownBackend "c").
Proof. reflexivity. Qed.
Print Assumptions C41_drive_letter_refuted.

(** A key-value string with [://] in a value goes to SQLite. *)
Theorem C41_slashes_in_value_refuted after :
  exists s ps, pairs s = Some ps /\ names_key s /\ backend_name (try_from after s) = "sqlite".
Proof.
  exists "host=db user=me password=x://y", [("host", "db"); ("user", "me"); ("password", "x://y")].
  split; [reflexivity|]. split; [apply key_somewhere_iff; reflexivity|reflexivity].
Qed.
Print Assumptions C41_slashes_in_value_refuted.

(** A libsql URL the url crate rejects goes to SQLite, which takes it for the name
    of a file. *)
Theorem C41_rejected_url_refuted :
  exists after s rest, has_scheme s "libsql" rest /\ connect (try_from after s) = Ok (BSqlite, s).
Proof.
  exists (fun _ _ => Some InvalidPort), "libsql://db:port", "//db:port". split; [apply url_scheme_iff; reflexivity|reflexivity].
Qed.
Print Assumptions C41_rejected_url_refuted.

(** ** Adding a parameter *)

(** Key-value strings: a plain pair is added after all earlier ones. *)
Theorem C41_add_pair after c name value ps :
  backend_name c = "pg" -> ~ has_slashes (conn_str c) -> names_key (conn_str c) ->
  pairs (conn_str c) = Some ps -> plain_key name -> plain_value value ->
  exists c', add_parameter after name value c = Ok c' /\ backend_name c' = "pg" /\
    pairs (conn_str c') = Some (ps ++ [(name, value)])%list /\ names_key (conn_str c') /\
    (free_of "/" name -> free_of "/" value -> ~ has_slashes (conn_str c')).
Proof.
  intros B S K P Pn Pv. unfold add_parameter. rewrite B. cbn [String.eqb].
  rewrite (proj2 (kv_iff (conn_str c)) (conj S K)). cbn.
  eexists. split; [reflexivity|]. split; [reflexivity|]. cbn [conn_str]. change (String " " (name ++ String "=" value)) with (" " ++ name ++ "=" ++ value).
  split; [apply pairs_add; assumption|]. split; [apply names_key_more; assumption|].
  intros F1 F2 H. apply S. revert H. apply slashes_in_front.
  apply (proj2 (free_app "/" " " _)). split; [cbn; split; [|exact I]; intros a b E; apply one_char in E; discriminate|].
  apply free_app. split; [assumption|]. apply (proj2 (free_app "/" "=" _)).
  split; [cbn; split; [|exact I]; intros a b E; apply one_char in E; discriminate|assumption].
Qed.
Print Assumptions C41_add_pair.
Example C41_add_pair_case after :
  add_parameter after "sslmode" "require" {| backend_name := "pg"; conn_str := "host=db user='m e'" |} =
    Ok {| backend_name := "pg"; conn_str := "host=db user='m e' sslmode=require" |} /\
  pairs "host=db user='m e'" = Some [("host", "db"); ("user", "m e")] /\ names_key "host=db user='m e'" /\
  ~ has_slashes "host=db user='m e'" /\ plain_key "sslmode" /\ plain_value "require".
Proof.
  assert (Hb : forall s, forallb (fun c => negb (ascii_blank c)) (list_ascii_of_string s) = true ->
            forall a c b, s = a ++ String c b -> ascii_blank c = false).
  { intros s H a c b ->. rewrite forallb_forall in H. specialize (H c).
    assert (I : In c (list_ascii_of_string (a ++ String c b))) by (clear; induction a; cbn; auto).
    apply H in I. destruct (ascii_blank c); [discriminate|reflexivity]. }
  split; [reflexivity|]. split; [reflexivity|]. split; [apply key_somewhere_iff; reflexivity|].
  split; [apply contains_false; reflexivity|]. split; split; try discriminate; split; try (apply Hb; reflexivity).
  - cbn. repeat split; intros a b E; apply one_char in E; discriminate.
  - cbn. repeat split; intros a b E; (destruct a as [|x a]; cbn in E; [discriminate|]; injection E as _ E; apply one_char in E; discriminate).
Qed.

(** URLs: the parameter is added after all earlier ones. *)
Theorem C41_add_query after c name value scheme :
  ~ (backend_name c = "pg" /\ ~ has_slashes (conn_str c) /\ names_key (conn_str c)) ->
  url_parse after (conn_str c) = inl scheme ->
  free_of "#" (conn_str c) -> free_of "=&#" name -> free_of "&#" value ->
  exists c' more, add_parameter after name value c = Ok c' /\ backend_name c' = backend_name c /\
    conn_str c' = conn_str c ++ more /\ parameters (conn_str c') = (parameters (conn_str c) ++ [(name, value)])%list.
Proof.
  intros N U Fs Fn Fv. unfold add_parameter.
  assert (String.eqb (backend_name c) "pg" && is_pg_key_value_pairs (conn_str c) = false)%bool as ->.
  { destruct (String.eqb_spec (backend_name c) "pg") as [E|E]; [|reflexivity]. cbn [andb].
    destruct (is_pg_key_value_pairs (conn_str c)) eqn:K; [|reflexivity]. apply kv_iff in K. tauto. }
  rewrite U. eexists. eexists. split; [reflexivity|]. split; [reflexivity|]. split; [reflexivity|].
  apply parameters_add; assumption.
Qed.
Print Assumptions C41_add_query.
Example C41_add_query_case :
  add_parameter any_rest "b" "2" {| backend_name := "pg"; conn_str := "postgres://h/db?a=1" |} =
    Ok {| backend_name := "pg"; conn_str := "postgres://h/db?a=1&b=2" |} /\
  parameters "postgres://h/db?a=1&b=2" = [("a", "1"); ("b", "2")] /\
  add_parameter any_rest "b" "2" {| backend_name := "sqlite"; conn_str := "file:x.db" |} =
    Ok {| backend_name := "sqlite"; conn_str := "file:x.db?b=2" |}.
Proof. repeat split; reflexivity. Qed.

(** Any other string is refused. *)
Theorem C41_add_refused after c name value e :
  ~ (backend_name c = "pg" /\ ~ has_slashes (conn_str c) /\ names_key (conn_str c)) ->
  url_parse after (conn_str c) = inr e ->
  exists m, add_parameter after name value c = Err (UnknownConnectString m).
Proof.
  intros N U. unfold add_parameter.
  assert (String.eqb (backend_name c) "pg" && is_pg_key_value_pairs (conn_str c) = false)%bool as ->.
  { destruct (String.eqb_spec (backend_name c) "pg") as [E|E]; [|reflexivity]. cbn [andb].
    destruct (is_pg_key_value_pairs (conn_str c)) eqn:K; [|reflexivity]. apply kv_iff in K. tauto. }
  rewrite U. eauto.
Qed.
Print Assumptions C41_add_refused.

(** A parameter added to a URL with a fragment becomes part of the fragment. *)
Theorem C41_add_fragment_refuted :
  exists c c', url_parse any_rest (conn_str c) = inl "file" /\
    add_parameter any_rest "mode" "ro" c = Ok c' /\ parameters (conn_str c') = [].
Proof.
  exists {| backend_name := "sqlite"; conn_str := "file:a#b" |}. eexists. repeat split; reflexivity.
Qed.
Print Assumptions C41_add_fragment_refuted.

(** Values are added as they are: one with an ampersand, a blank or no characters
    is not the value read back. *)
Theorem C41_add_unquoted_refuted :
  (exists c c', add_parameter any_rest "p" "x&y=z" c = Ok c' /\ parameters (conn_str c) = [] /\
     parameters (conn_str c') = [("p", "x"); ("y", "z")]) /\
  (exists c c', add_parameter any_rest "password" "a b" c = Ok c' /\ pairs (conn_str c) <> None /\ pairs (conn_str c') = None) /\
  (exists c c', add_parameter any_rest "password" "" c = Ok c' /\ pairs (conn_str c) <> None /\ pairs (conn_str c') = None).
Proof.
  split; [exists {| backend_name := "sqlite"; conn_str := "file:a" |}; eexists; repeat split; reflexivity|].
  split; exists {| backend_name := "pg"; conn_str := "host=db" |}; eexists;
    (split; [reflexivity|]; split; [discriminate|reflexivity]).
Qed.
Print Assumptions C41_add_unquoted_refuted.

(** ** Saving and loading *)

Lemma own_path fs c path fs' : save c fs path = Ok fs' ->
  conn_complete_if_dir fs' path = conn_complete_if_dir fs path /\ fs' (conn_complete_if_dir fs path) = Some (File (json_of c)).
Proof.
  unfold save, save_upto. rewrite substring_all. set (p := conn_complete_if_dir fs path).
  assert (Ok (put fs p (File (json_of c))) = Ok fs' -> conn_complete_if_dir fs' path = p /\ fs' p = Some (File (json_of c))) as G.
  { intros [= <-]. unfold put. rewrite String.eqb_refl. split; [|reflexivity]. unfold conn_complete_if_dir.
    subst p. unfold conn_complete_if_dir. destruct (fs path) as [[x|]|] eqn:E.
    - rewrite String.eqb_refl. reflexivity.
    - destruct (String.eqb_spec path (path ++ "/connection.json")) as [Ep|]; [|reflexivity].
      exfalso. apply (f_equal String.length) in Ep. rewrite sapp_len in Ep. cbn in Ep. lia.
    - rewrite String.eqb_refl. reflexivity. }
  destruct (fs p) as [[x|]|]; [exact G|discriminate|exact G].
Qed.

(** A specification survives being saved and loaded, whatever its text. *)
Theorem C41_save_load c fs path fs' : save c fs path = Ok fs' -> load fs' path = Ok c.
Proof.
  intros H. apply own_path in H as [H1 H2]. unfold load. rewrite H1, H2. apply of_json_ok.
Qed.
Print Assumptions C41_save_load.

(** Saving fails only where a directory is in the way, and touches one file. *)
Theorem C41_save_files c fs path :
  (forall fs', save c fs path = Ok fs' ->
     forall q, q <> path -> q <> path ++ "/connection.json" -> fs' q = fs q) /\
  (fs path = Some Dir -> fs (path ++ "/connection.json") <> Some Dir -> exists fs', save c fs path = Ok fs') /\
  (fs path <> Some Dir -> exists fs', save c fs path = Ok fs').
Proof.
  unfold save, save_upto, conn_complete_if_dir. split; [|split].
  - intros fs' H q N1 N2. destruct (fs path) as [[x|]|] eqn:E.
    + rewrite E in H. injection H as <-. unfold put. destruct (String.eqb_spec q path); congruence.
    + destruct (fs (path ++ "/connection.json")) as [[y|]|]; try discriminate; injection H as <-; unfold put;
        destruct (String.eqb_spec q (path ++ "/connection.json")); congruence.
    + rewrite E in H. injection H as <-. unfold put. destruct (String.eqb_spec q path); congruence.
  - intros -> N. destruct (fs (path ++ "/connection.json")) as [[y|]|]; eauto; congruence.
  - intros N. destruct (fs path) as [[x|]|] eqn:E; try congruence; rewrite E; eauto.
Qed.
Print Assumptions C41_save_files.

(** If saving stops anywhere, what is loaded afterwards, if anything, is what was
    saved. *)
Theorem C41_torn_save c n fs path fs' c' :
  save_upto n c fs path = Ok fs' -> load fs' path = Ok c' -> c' = c.
Proof.
  unfold save_upto. set (p := conn_complete_if_dir fs path). intros H L.
  assert (fs' = put fs p (File (substring 0 n (json_of c)))) as ->.
  { destruct (fs p) as [[x|]|]; congruence. }
  clear H. unfold load in L.
  assert (conn_complete_if_dir (put fs p (File (substring 0 n (json_of c)))) path = p) as Ep.
  { unfold put, conn_complete_if_dir. subst p. unfold conn_complete_if_dir. destruct (fs path) as [[x|]|] eqn:E.
    - rewrite String.eqb_refl. reflexivity.
    - destruct (String.eqb_spec path (path ++ "/connection.json")) as [Ep|]; [|reflexivity].
      exfalso. apply (f_equal String.length) in Ep. rewrite sapp_len in Ep. cbn in Ep. lia.
    - rewrite String.eqb_refl. reflexivity. }
  rewrite Ep in L. unfold put in L. rewrite String.eqb_refl in L.
  destruct (substring_prefix n (json_of c)) as (q & Hq). exact (of_json_prefix _ _ _ _ Hq L).
Qed.
Print Assumptions C41_torn_save.
Example C41_save_case :
  let fs := fun p => if String.eqb p "dir" then Some Dir else None in
  let c := {| backend_name := "pg"; conn_str := "host=db password='\""" ++ newline ++ "'" |} in
  exists fs', save c fs "dir" = Ok fs' /\ load fs' "dir" = Ok c /\ load fs' "dir/connection.json" = Ok c /\
    load fs "dir" = Err IOError /\
    (exists fs'', save_upto 40 c fs "dir" = Ok fs'' /\ load fs'' "dir" = Err SerdeJson).
Proof. cbn zeta. eexists. split; [reflexivity|]. repeat split; try reflexivity. eexists. split; reflexivity. Qed.
