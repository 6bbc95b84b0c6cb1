(** C188: what importing marEx does to the process. *)
From Coq Require Import String.
From Verif Require Import Base Coverage.
Open Scope string_scope.

(** A variable is set to a text that is not empty. *)
Definition is_set (p : process) (x : string) : Prop := exists v, environ p x = Some v /\ v <> "".
Definition under_coverage (p : process) : Prop := is_set p "COVERAGE_PROCESS_START" \/ is_set p "PYTEST_COVERAGE".
Lemma given_set p x : given (environ p) x = true <-> is_set p x.
Proof.
  unfold given, is_set. destruct (environ p x) as [v|]; [|split; [discriminate|intros (v & E & _); discriminate]]. destruct v as [|c v].
  - split; [discriminate|]. intros (v & E & N). injection E as <-. exfalso. apply N. reflexivity.
  - split; [|reflexivity]. intros _. exists (String c v). split; [reflexivity|discriminate].
Qed.
Lemma coverage_test p : given (environ p) "COVERAGE_PROCESS_START" || given (environ p) "PYTEST_COVERAGE" = true <-> under_coverage p.
Proof. rewrite Bool.orb_true_iff, !given_set. reflexivity. Qed.
Lemma step_keeps p x : x <> "NUMBA_DISABLE_JIT" -> x <> "NUMBA_CACHE_DIR" -> environ (disable_numba_if_coverage p) x = environ p x.
Proof.
  intros A B. unfold disable_numba_if_coverage. destruct (_ || _); [|reflexivity]. cbn [environ]. unfold set_env. apply String.eqb_neq in A, B. rewrite A, B. reflexivity.
Qed.
Lemma step_coverage p : under_coverage (disable_numba_if_coverage p) <-> under_coverage p.
Proof. unfold under_coverage, is_set. rewrite !step_keeps by discriminate. reflexivity. Qed.
Lemma imported_coverage k p : under_coverage (imported k p) <-> under_coverage p.
Proof. induction k as [|k IH]; [reflexivity|]. cbn [imported]. rewrite step_coverage. exact IH. Qed.

(** C188.  Where neither variable of coverage is set, importing marEx any number of times changes
    nothing of the process: no variable, no setting of numba, no function of numbagg. *)
Theorem C188_untouched (k : nat) (p : process) : ~ under_coverage p -> imported k p = p.
Proof.
  intro N. induction k as [|k IH]; [reflexivity|]. cbn [imported]. rewrite IH. unfold disable_numba_if_coverage.
  destruct (_ || _) eqn:E; [|reflexivity]. apply coverage_test in E. contradiction.
Qed.
Print Assumptions C188_untouched.

(** Under coverage two variables change and no other, however often it is imported. *)
Theorem C188_environment (k : nat) (p : process) (x : string) : under_coverage p -> (0 < k)%nat ->
  environ (imported k p) x = (if String.eqb x "NUMBA_CACHE_DIR" then Some "/tmp" else if String.eqb x "NUMBA_DISABLE_JIT" then Some "1" else environ p x) /\ measuring (imported k p) = measuring p.
Proof.
  intros U K. destruct k as [|k]; [lia|]. clear K.
  assert (M : forall j, measuring (imported j p) = measuring p) by (induction j as [|j IH]; [reflexivity|]; cbn [imported]; unfold disable_numba_if_coverage; destruct (_ || _); exact IH).
  split; [|apply M]. induction k as [|k IH].
  - cbn [imported]. unfold disable_numba_if_coverage. rewrite (proj2 (coverage_test p) U). reflexivity.
  - cbn [imported]. cbn [imported] in IH. set (q := disable_numba_if_coverage (imported k p)) in *.
    assert (Uq : under_coverage q) by (unfold q; apply step_coverage, imported_coverage, U). unfold disable_numba_if_coverage. rewrite (proj2 (coverage_test q) Uq). cbn [environ]. unfold set_env.
    destruct (String.eqb x "NUMBA_CACHE_DIR"); [reflexivity|]. destruct (String.eqb x "NUMBA_DISABLE_JIT"); [reflexivity|exact IH].
Qed.
Print Assumptions C188_environment.

(** Under coverage numba's compiler is off and numbagg's functions are NumPy's, and the functions
    replaced stay available under their new names after any number of imports. *)
Theorem C188_originals_kept (k : nat) (p : process) : under_coverage p -> (0 < k)%nat ->
  (forall b, jit_disabled p = Some b -> jit_disabled (imported k p) = Some true) /\
  (forall a, aggregation p = Some a -> kept_quantile a = None ->
     exists a', aggregation (imported k p) = Some a' /\ nanquantile a' = PureNumpy /\ kept_quantile a' = Some (nanquantile a) /\
                (forall f, nanpercentile a = Some f -> nanpercentile a' = Some PureNumpy /\ kept_percentile a' = Some f) /\
                (nanpercentile a = None -> nanpercentile a' = None)) /\
  (jit_disabled p = None -> jit_disabled (imported k p) = None) /\ (aggregation p = None -> aggregation (imported k p) = None).
Proof.
  intros U K. destruct k as [|k]; [lia|]. clear K. induction k as [|k IH].
  - cbn [imported]. unfold disable_numba_if_coverage. rewrite (proj2 (coverage_test p) U). cbn [jit_disabled aggregation].
    split; [intros b ->; reflexivity|]. split; [|split; intros ->; reflexivity].
    intros a -> N. exists (patched a). cbn [option_map]. split; [reflexivity|]. unfold patched. rewrite N. destruct (nanpercentile a) as [f|]; cbn; (split; [reflexivity|]); (split; [reflexivity|]); (split; [intros g E; try discriminate; injection E as <-; split; reflexivity|intro E; (discriminate || reflexivity)]).
  - cbn [imported]. cbn [imported] in IH. set (q := disable_numba_if_coverage (imported k p)) in *.
    assert (Uq : under_coverage q) by (unfold q; apply step_coverage, imported_coverage, U). unfold disable_numba_if_coverage. rewrite (proj2 (coverage_test q) Uq). cbn [jit_disabled aggregation].
    destruct IH as (A & B & C & D). split; [intros b E; rewrite (A b E); reflexivity|]. split; [|split; intro E; [rewrite (C E)|rewrite (D E)]; reflexivity].
    intros a E N. destruct (B a E N) as (a' & E' & F1 & F2 & F3 & F4). exists a'. rewrite E'. split; [cbn [option_map]; unfold patched; rewrite F2; reflexivity|]. split; [exact F1|]. split; [exact F2|]. split; [exact F3|exact F4].
Qed.
Print Assumptions C188_originals_kept.

(** Measuring starts only in a worker under coverage (in the function; no code calls it). *)
Theorem C188_measuring (ok : bool) (p : process) : measuring p = false ->
  (measuring (initialize_coverage ok p) = true <-> under_coverage p /\ is_set p "DASK_WORKER_PROCESS" /\ ok = true).
Proof.
  intro M. unfold initialize_coverage. rewrite <- coverage_test, <- given_set. destruct (_ || _), (given _ "DASK_WORKER_PROCESS"); cbn [andb measuring]; rewrite M; cbn [orb]; destruct ok; intuition discriminate.
Qed.
Print Assumptions C188_measuring.

(** An empty variable counts as not set; a cache directory of the user is replaced under coverage. *)
Example C188_case :
  let p v := mkProcess (fun x => if String.eqb x "PYTEST_COVERAGE" then Some v else if String.eqb x "NUMBA_CACHE_DIR" then Some "/scratch" else None)
                       (Some false) (Some (mkNumbagg Compiled None None None)) false in
  environ (imported 2 (p "")) "NUMBA_CACHE_DIR" = Some "/scratch" /\ environ (imported 2 (p "1")) "NUMBA_CACHE_DIR" = Some "/tmp" /\
  aggregation (imported 2 (p "1")) = Some (mkNumbagg PureNumpy None (Some Compiled) None).
Proof. split; [reflexivity|]. split; reflexivity. Qed.
