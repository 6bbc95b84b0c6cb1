(** Property theorems C124-C127 (instrumentation). *)
From Coq Require Import String Qround Lqa Qabs.
From Verif Require Import Base Support Instrument InstrumentSpec InstrumentProofs SupportProps.
Open Scope nat_scope.

(** ** C124: timed blocks *)

(** As claimed, a block under log_timing gives what it gives alone.  False: in
    verbose mode a block that takes no measurable time raises. *)
Theorem C124_timing_is_transparent_refuted {A : Type} (logger op : string) (level : Z) (show : bool) (a : A) (w : world) :
  w_mode w = Verbose -> (w_clock w (w_ticks w) == w_clock w (S (w_ticks w)))%Q ->
  snd (log_timing logger op level false show (fun w => (w, Ok a)) w) = Err ZeroDivisionError /\
  ~ transparent (log_timing logger op level false show (fun w => (w, Ok a))) (fun w => (w, Ok a)) w.
Proof.
  intros V C. destruct w as [m cl k mem lg bars]. cbn [w_mode w_clock w_ticks] in V, C. subst m.
  assert (Q0 : Qeq_bool (cl (S k) - cl k) 0 = true) by (apply Qeq_bool_iff; rewrite C; ring).
  assert (E : snd (log_timing logger op level false show (fun w => (w, Ok a)) (mkWorld Verbose cl k mem lg bars)) = Err ZeroDivisionError).
  { destruct show; unfold log_timing, timing_end, maybe_memory; cbn; rewrite Q0; reflexivity. }
  split; [exact E|]. intros (w1 & _ & _ & R). rewrite E in R. discriminate.
Qed.
Print Assumptions C124_timing_is_transparent_refuted.

(** Otherwise it does, whatever the block returns, raises or changes, and the last
    record says how it ended.  Missing from the full claim: zero durations in
    verbose mode, failing psutil calls. *)
Theorem C124_timing_is_transparent_partial {A : Type} (logger op : string) (level : Z) (memory show : bool) (block : action A) (w : world) :
  (w_memory w = None \/ memory = false) ->
  (forall w1 w2 a, only_logged w w1 -> block w1 = (w2, Ok a) ->
     (w_memory w2 = None \/ memory = false) /\
     (w_mode w2 = Verbose -> ~ (w_clock w2 (w_ticks w2) == w_clock w (w_ticks w))%Q)) ->
  transparent (log_timing logger op level memory show block) block w /\
  let '(w', r) := log_timing logger op level memory show block w in
  match r with
  | Ok _ => exists lev, last_entry w' (mkEntry logger lev (Completed op)) /\ (w_mode w' = Verbose -> lev = DEBUG) /\ (w_mode w' <> Verbose -> lev = level)
  | Err e => last_entry w' (mkEntry logger ERROR (Failed op e))
  end.
Proof.
  intros M H. unfold transparent, log_timing. cbn [read_clock].
  set (wa := mkWorld (w_mode w) (w_clock w) (S (w_ticks w)) (w_memory w) (w_log w) (w_bars w)).
  assert (La : only_logged w wa) by apply logged_clock.
  set (wb := if is_verbose wa && show then record_entry (mkEntry logger DEBUG (Initializing op)) wa else wa).
  assert (Lb : only_logged w wb) by (unfold wb; destruct (is_verbose wa && show); [eapply only_logged_trans; [exact La|apply logged_record]|exact La]).
  assert (Mb : w_memory wb = None \/ memory = false) by (destruct Lb as (_ & _ & E & _); rewrite E; exact M).
  destruct (memory_ok logger op level memory wb Mb) as (wc & -> & Lc).
  set (w1 := record_entry (mkEntry logger level (Starting op)) wc).
  assert (L1 : only_logged w w1) by (eapply only_logged_trans; [exact Lb|]; eapply only_logged_trans; [exact Lc|]; apply logged_record).
  assert (H1 := H w1). destruct (block w1) as [w2 [a|e]] eqn:B.
  - destruct (H1 w2 a L1 eq_refl) as [M2 D]. unfold timing_end. cbn [read_clock].
    set (w3 := mkWorld (w_mode w2) (w_clock w2) (S (w_ticks w2)) (w_memory w2) (w_log w2) (w_bars w2)).
    assert (L3 : only_logged w2 w3) by apply logged_clock.
    destruct (memory_ok logger op level memory w3) as (w4 & -> & L4); [exact M2|].
    assert (Md : w_mode w4 = w_mode w2) by (destruct L4 as (E & _); exact E).
    unfold is_verbose. rewrite Md.
    assert (Fin : forall lev, (w_mode w2 = Verbose -> lev = DEBUG) -> (w_mode w2 <> Verbose -> lev = level) ->
      (exists w0, only_logged w w0 /\ only_logged (fst (block w0)) (record_entry (mkEntry logger lev (Completed op)) w4) /\ Ok a = snd (block w0)) /\
      (exists l, last_entry (record_entry (mkEntry logger lev (Completed op)) w4) (mkEntry logger l (Completed op)) /\
         (w_mode w4 = Verbose -> l = DEBUG) /\ (w_mode w4 <> Verbose -> l = level))).
    { intros lev V1 V2. split.
      - exists w1. rewrite B. cbn [fst snd]. split; [exact L1|]. split; [|reflexivity].
        eapply only_logged_trans; [exact L3|]. eapply only_logged_trans; [exact L4|]. apply logged_record.
      - exists lev. split; [exists (w_log w4); reflexivity|]. rewrite Md. split; [exact V1|exact V2]. }
    destruct (w_mode w2) eqn:V.
    + apply Fin; intro X; [discriminate|reflexivity].
    + apply Fin; intro X; [discriminate|reflexivity].
    + destruct (Qeq_bool (w_clock w2 (w_ticks w2) - w_clock w (w_ticks w)) 0) eqn:Q0.
      * exfalso. apply Qeq_bool_iff in Q0. apply (D eq_refl). lra.
      * apply Fin; intro X; [reflexivity|destruct (X eq_refl)].
  - split.
    + exists w1. rewrite B. split; [exact L1|]. split; [apply (@logged_failing A)|reflexivity].
    + unfold failing. cbn [read_clock]. eexists. reflexivity.
Qed.
Print Assumptions C124_timing_is_transparent_partial.

(** A failing psutil reading takes the block with it: the error is raised and the block
    never runs, whatever it is. *)
Theorem C124_memory_reading_refuted {A : Type} (logger op : string) (level : Z) (show : bool) (block : action A) (e : exn) (w : world) :
  w_memory w = Some e -> (w_mode w = Verbose \/ (level <= 20)%Z) ->
  snd (log_timing logger op level true show block w) = Err e /\
  (forall other : action A, log_timing logger op level true show other w = log_timing logger op level true show block w) /\
  (forall a : A, ~ transparent (log_timing logger op level true show (fun w => (w, Ok a))) (fun w : world => (w, Ok a)) w).
Proof.
  intros M L. assert (K : (is_verbose w || (level <=? INFO)%Z) = true).
  { unfold is_verbose, INFO. destruct L as [-> | L]; [reflexivity|]. apply Z.leb_le in L. rewrite L. apply orb_true_r. }
  assert (E : forall b : action A, log_timing logger op level true show b w =
    let w1 := mkWorld (w_mode w) (w_clock w) (S (w_ticks w)) (w_memory w) (w_log w) (w_bars w) in
    (if is_verbose w && show then record_entry (mkEntry logger DEBUG (Initializing op)) w1 else w1, Err e)).
  { intro b. unfold log_timing. cbn [read_clock]. destruct w as [m cl k mem lg bars]. cbn [w_memory] in M. subst mem.
    unfold maybe_memory, log_memory_usage. cbn [andb]. unfold is_verbose in *. cbn [w_mode] in *. destruct (match m with Verbose => true | _ => false end && show); cbn [record_entry w_mode w_memory w_log]; rewrite K; reflexivity. }
  split; [rewrite E; reflexivity|]. split; [intro other; rewrite !E; reflexivity|].
  intros a (w1 & _ & _ & R). rewrite E in R. discriminate.
Qed.
Print Assumptions C124_memory_reading_refuted.

(** The records of a block that itself logs nothing: one at the start in verbose mode if
    progress is shown, a memory record if asked for and the mode is verbose or the level
    at most INFO, the start; then memory and completion, or the failure. *)
Theorem C124_records {A : Type} (logger op : string) (level : Z) (memory show : bool) (r : result exn A) (w : world) (first mem : list entry) (closing : Z) :
  w_memory w = None -> (w_mode w = Verbose -> ~ (w_clock w (S (w_ticks w)) == w_clock w (w_ticks w))%Q) ->
  (w_mode w = Verbose /\ show = true -> first = [mkEntry logger 10 (Initializing op)]) ->
  (~ (w_mode w = Verbose /\ show = true) -> first = []) ->
  (memory = true /\ (w_mode w = Verbose \/ (level <= 20)%Z) -> mem = [mkEntry logger 10 (Memory op)]) ->
  (~ (memory = true /\ (w_mode w = Verbose \/ (level <= 20)%Z)) -> mem = []) ->
  (w_mode w = Verbose -> closing = 10%Z) -> (w_mode w <> Verbose -> closing = level) ->
  w_log (fst (log_timing logger op level memory show (fun w => (w, r)) w)) =
  w_log w ++ first ++ mem ++ [mkEntry logger level (Starting op)] ++
  match r with Ok _ => mem ++ [mkEntry logger closing (Completed op)] | Err e => [mkEntry logger 40 (Failed op e)] end.
Proof.
  intros M D F1 F0 M1 M0 C1 C0. destruct w as [m cl k me lg bars]. cbn [w_memory w_mode w_clock w_ticks w_log] in *. subst me.
  unfold log_timing, timing_end, maybe_memory, log_memory_usage, failing. cbn [read_clock w_mode w_clock w_ticks w_memory w_log w_bars].
  assert (Fe : (if (match m with Verbose => true | _ => false end && show)%bool then [mkEntry logger 10 (Initializing op)] else []) = first).
  { destruct m, show; cbn [andb]; symmetry; try (apply F1; split; reflexivity); apply F0; intros [? ?]; discriminate. }
  assert (Me : (if (memory && (match m with Verbose => true | _ => false end || (level <=? INFO)%Z))%bool then [mkEntry logger 10 (Memory op)] else []) = mem).
  { unfold INFO. destruct memory; [|symmetry; apply M0; intros [? _]; discriminate]. destruct (Z.leb_spec level 20) as [L|L]; cbn [andb].
    - rewrite orb_true_r. symmetry. apply M1. split; [reflexivity|right; exact L].
    - rewrite orb_false_r. destruct m; symmetry; try (apply M0; intros [_ [X|X]]; [discriminate|lia]). apply M1. split; [reflexivity|left; reflexivity]. }
  rewrite <- Fe, <- Me. clear Fe Me F1 F0 M1 M0. unfold INFO, DEBUG, ERROR.
  assert (V : m = Verbose \/ m <> Verbose) by (destruct m; [right|right|left]; congruence). destruct V as [->|V].
  - assert (Q0 : Qeq_bool (cl (S k) - cl k) 0 = false).
    { destruct (Qeq_bool (cl (S k) - cl k) 0) eqn:Q0; [|reflexivity]. exfalso. apply Qeq_bool_iff in Q0. apply (D eq_refl). lra. }
    rewrite (C1 eq_refl). destruct show, memory, r; cbn; rewrite ?Q0; cbn; rewrite <- ?app_assoc; reflexivity.
  - rewrite (C0 V). destruct (level <=? 20)%Z eqn:L; destruct m; try congruence; destruct memory, r; cbn; rewrite ?L; cbn; rewrite ?L; cbn; rewrite <- ?app_assoc; reflexivity.
Qed.
Print Assumptions C124_records.

(** Progress bars never change a block's outcome; a bar that was opened is closed,
    whatever happened; none is opened in quiet mode. *)
Theorem C124_progress_bars_are_transparent {A : Type} (tqdm : bool) (desc : string) (logger : option string) (block : option nat -> action A) (w : world) :
  let '(w', r) := progress_bar tqdm desc logger block w in
  (w_mode w <> Quiet /\ tqdm = true /\
   (let k := length (w_bars w) in let opened := mkWorld (w_mode w) (w_clock w) (w_ticks w) (w_memory w) (w_log w) (w_bars w ++ [true]) in
    r = snd (block (Some k) opened) /\
    (k < length (w_bars (fst (block (Some k) opened))) -> nth k (w_bars w') true = false))) \/
  ((w_mode w = Quiet \/ tqdm = false) /\ r = snd (block None w) /\ only_logged (fst (block None w)) w').
Proof.
  cbv zeta. change (mkWorld (w_mode w) (w_clock w) (w_ticks w) (w_memory w) (w_log w) (w_bars w ++ [true])) with (open_bar w). unfold progress_bar, has_bar, is_quiet.
  assert (Cl : forall l k, k < length l -> nth k (close_nth k l) true = false).
  { induction l as [|b l IH]; intros k K; cbn in K; [lia|]. destruct k; [reflexivity|]. cbn. apply IH. lia. }
  assert (No : (w_mode w = Quiet \/ tqdm = false) ->
    let '(w', r) := (let (w0, r) := block None w in
      (match logger with Some l => if match w_mode w0 with Quiet => true | _ => false end then w0 else record_entry (mkEntry l INFO (Completed desc)) w0 | None => w0 end, r)) in
    r = snd (block None w) /\ only_logged (fst (block None w)) w').
  { intros _. destruct (block None w) as [w0 r]. split; [reflexivity|]. cbn [fst].
    destruct logger as [l|]; [|apply only_logged_refl]. destruct (w_mode w0); try apply only_logged_refl; apply logged_record. }
  assert (Yes : w_mode w <> Quiet -> tqdm = true ->
    let '(w', r) := (let (w0, r) := block (Some (length (w_bars w))) (open_bar w) in (set_bars (close_nth (length (w_bars w)) (w_bars w0)) w0, r)) in
    r = snd (block (Some (length (w_bars w))) (open_bar w)) /\
    (length (w_bars w) < length (w_bars (fst (block (Some (length (w_bars w))) (open_bar w)))) -> nth (length (w_bars w)) (w_bars w') true = false)).
  { intros _ _. destruct (block (Some (length (w_bars w))) (open_bar w)) as [w0 r]. split; [reflexivity|]. intro K. cbn [set_bars w_bars]. apply Cl. exact K. }
  cbv zeta in *. destruct tqdm.
  - destruct (w_mode w) eqn:Md; cbn [orb negb].
    + specialize (No (or_introl eq_refl)). destruct (block None w) as [w0 r]. right. split; [left; reflexivity|exact No].
    + specialize (Yes ltac:(discriminate) eq_refl). destruct (block _ (open_bar w)) as [w0 r]. left. split; [discriminate|]. split; [reflexivity|exact Yes].
    + specialize (Yes ltac:(discriminate) eq_refl). destruct (block _ (open_bar w)) as [w0 r]. left. split; [discriminate|]. split; [reflexivity|exact Yes].
  - rewrite orb_true_r. cbn [negb]. specialize (No (or_intror eq_refl)). destruct (block None w) as [w0 r]. right. split; [right; reflexivity|exact No].
Qed.
Print Assumptions C124_progress_bars_are_transparent.

Definition quiet_clock (m : mode) : world := mkWorld m (fun n => Z.of_nat n # 4)%Q 0 None [] [].
Example C124_case :
  snd (log_timing "marEx" "Spatial hole filling" INFO true true (fun w => (w, Ok 7)) (quiet_clock Verbose)) = Ok 7 /\
  map e_note (w_log (fst (log_timing "marEx" "Spatial hole filling" INFO true true (fun w => (w, Ok 7)) (quiet_clock Normal)))) =
    [Memory "Spatial hole filling"; Starting "Spatial hole filling"; Memory "Spatial hole filling"; Completed "Spatial hole filling"] /\
  w_bars (fst (progress_bar true "d" None (fun _ w => (w, @Err exn nat (Raised "x"))) (quiet_clock Normal))) = [false] /\
  (w_clock (mkWorld Verbose (fun _ => 5) 0 None [] []) 0 == w_clock (mkWorld Verbose (fun _ => 5) 0 None [] []) 1)%Q.
Proof. split; [reflexivity|]. split; [reflexivity|]. split; reflexivity. Qed.

(** ** C125: decorated functions *)

(** As claimed, a decorated function behaves like the function.  False: an
    argument whose repr fails prevents the call. *)
Theorem C125_unprintable_arguments_refuted {A : Type} (logger fname : string) (level : Z) (e : exn) (rest kwargs : list (result exn string))
    (func : action A) (w : world) :
  call_logged logger level fname (Err e :: rest) kwargs func w = (w, Err e).
Proof. unfold call_logged, summary. cbn. reflexivity. Qed.
Print Assumptions C125_unprintable_arguments_refuted.

(** One decorator object used on functions of several modules logs them all to the
    logger of the first. *)
Theorem C125_reused_decorators_log_to_the_first_module_refuted (m : string) (ms : list string) :
  decorate_all None (m :: ms) = Some m.
Proof. cbn. induction ms as [|x ms IH]; [reflexivity|exact IH]. Qed.
Print Assumptions C125_reused_decorators_log_to_the_first_module_refuted.

(** If the first three positional and keyword arguments have a repr, the function is
    called once and its result or error returned; the call is recorded before,
    with at most 203 characters of arguments, and how it ended after. *)
Theorem C125_decorated_calls_are_transparent_partial {A : Type} (logger fname : string) (level : Z) (args kwargs : list (result exn string))
    (func : action A) (w : world) :
  (forall r, In r (firstn 3 args) \/ In r (firstn 3 kwargs) -> exists s, r = Ok s) ->
  transparent (call_logged logger level fname args kwargs func) func w /\
  exists w1 params, only_logged w w1 /\ String.length params <= 203 /\
    w_log w1 = w_log w ++ [mkEntry logger level (Calling fname params)] /\
    let w' := fst (call_logged logger level fname args kwargs func w) in
    match snd (func w1) with
    | Ok _ => w_log w' = w_log (fst (func w1)) ++ [mkEntry logger level (Completed fname)]
    | Err e => w_log w' = w_log (fst (func w1)) ++ [mkEntry logger ERROR (Failed fname e)]
    end.
Proof.
  intro H. assert (R : forall l, (forall r, In r l -> exists s, r = Ok s) -> exists t, reprs l = Ok t).
  { induction l as [|r l IH]; intro G; [exists []; reflexivity|]. destruct (G r (or_introl eq_refl)) as (s & ->).
    destruct IH as (t & E); [intros x X; apply G; right; exact X|]. exists (s :: t). cbn. rewrite E. reflexivity. }
  assert (S0 : exists params, summary args kwargs = Ok params /\ String.length params <= 203).
  { unfold summary. destruct (R (firstn 3 args)) as (a & ->); [intros r I; apply H; left; exact I|].
    destruct (R (firstn 3 kwargs)) as (k & ->); [intros r I; apply H; right; exact I|]. cbn [bind].
    eexists. split; [reflexivity|]. set (p := String.concat _ _). destruct (Nat.ltb_spec 200 (String.length p)) as [L|L]; [|lia].
    assert (Ls : forall n s, String.length (substring 0 n s) <= n).
    { induction n as [|n IH]; intros [|c s]; cbn; try lia. specialize (IH s). lia. }
    assert (La : forall s t, String.length (s ++ t)%string = String.length s + String.length t) by (induction s as [|c s IH]; intro t; cbn; [reflexivity|rewrite IH; reflexivity]).
    rewrite La. specialize (Ls 200 p). cbn [String.length]. lia. }
  destruct S0 as (params & E & Lp). unfold transparent, call_logged. rewrite E. cbn [read_clock].
  set (w1 := mkWorld _ _ _ _ _ _). 
  assert (L1 : only_logged w w1).
  { eapply only_logged_trans; [apply (logged_record (mkEntry logger level (Calling fname params)))|]. apply logged_clock. }
  destruct (func w1) as [w2 [a|e]] eqn:B.
  - split.
    + exists w1. rewrite B. cbn [fst snd]. split; [exact L1|]. split; [|reflexivity].
      eapply only_logged_trans; [apply logged_clock|apply logged_record].
    + exists w1, params. rewrite B. split; [exact L1|]. split; [exact Lp|]. split; [reflexivity|]. reflexivity.
  - split.
    + exists w1. rewrite B. cbn [fst snd]. split; [exact L1|]. split; [apply (@logged_failing A)|reflexivity].
    + exists w1, params. rewrite B. split; [exact L1|]. split; [exact Lp|]. split; [reflexivity|]. reflexivity.
Qed.
Print Assumptions C125_decorated_calls_are_transparent_partial.

(** How arguments are listed: all of up to three; of more, the first three and how many
    were left out, in decimal. *)
Definition listed (args : list (result exn string)) (shown : list string) : Prop :=
  (length args <= 3 -> args = map Ok shown) /\
  (3 < length args -> exists three d, firstn 3 args = map Ok three /\ shown = three ++ [("... +" ++ d ++ " more")%string] /\
                      all_digits d = true /\ value d + 3 = length args).
(** The text of a call: the arguments, then the keywords, cut after 200 characters. *)
Theorem C125_summary (args kwargs : list (result exn string)) (text : string) : summary args kwargs = Ok text ->
  exists a k, listed args a /\ listed kwargs k /\
    let full := String.concat ", " (a ++ k) in
    (String.length full <= 200 -> text = full) /\ (200 < String.length full -> text = (substring 0 200 full ++ "...")%string).
Proof.
  assert (R : forall l s, reprs l = Ok s -> l = map Ok s).
  { induction l as [|x l IH]; intros s H; cbn [reprs] in H; [injection H as <-; reflexivity|]. destruct x as [x|e]; [|discriminate]. cbn [bind] in H.
    destruct (reprs l) as [t|e] eqn:E; [|discriminate]. cbn [bind] in H. injection H as <-. cbn [map]. f_equal. apply IH. reflexivity. }
  assert (L : forall l s, reprs (firstn 3 l) = Ok s -> listed l (if 3 <? length l then s ++ [more (length l)] else s)).
  { intros l s H. apply R in H. split.
    - intro Le. destruct (Nat.ltb_spec 3 (length l)); [lia|]. rewrite firstn_all2 in H by exact Le. exact H.
    - intro Lt. destruct (Nat.ltb_spec 3 (length l)); [|lia]. exists s, (digits (length l - 3)). split; [exact H|]. split; [reflexivity|].
      split; [apply digits_fuel_digits; reflexivity|]. rewrite digits_value. lia. }
  unfold summary. destruct (reprs (firstn 3 args)) as [a|e] eqn:Ea; [|discriminate]. destruct (reprs (firstn 3 kwargs)) as [k|e] eqn:Ek; [|discriminate]. cbn [bind].
  intro H. eexists. eexists. split; [exact (L _ _ Ea)|]. split; [exact (L _ _ Ek)|]. cbv zeta. injection H as <-.
  match goal with |- context [200 <? ?n] => destruct (Nat.ltb_spec 200 n) as [Lt|Le] end; split; intro X; try reflexivity; exfalso; apply (Nat.lt_irrefl 200); eapply Nat.lt_le_trans; eassumption.
Qed.
Print Assumptions C125_summary.
Example C125_case :
  let args := [Ok "1"; Ok "'a'"; Ok "[]"; Err (Raised "r"); Ok "5"]%string in
  (forall r, In r (firstn 3 args) \/ In r (firstn 3 ([] : list (result exn string))) -> exists s, r = Ok s) /\
  summary args [] = Ok "1, 'a', [], ... +2 more"%string /\
  summary [Ok "1"]%string (map Ok ["a=1"; "b=2"; "c=3"]%string) = Ok "1, a=1, b=2, c=3"%string /\
  summary [Ok "1"; Ok "2"; Ok "3"]%string (map Ok ["a=1"; "b=2"; "c=3"; "d=4"]%string) = Ok "1, 2, 3, a=1, b=2, c=3, ... +1 more"%string /\
  decorate_all None ["a"; "b"]%string = Some "a"%string.
Proof.
  split; [|split; [vm_compute; reflexivity|split; [vm_compute; reflexivity|split; [vm_compute; reflexivity|reflexivity]]]].
  intros r [I|I]; cbn in I; [|destruct I]. destruct I as [<-|[<-|[<-|[]]]]; eexists; reflexivity.
Qed.

(** ** C126: progress records *)

(** As claimed, log_progress reports each multiple of [frequency] percent and never
    raises.  False: 11 of 20 with frequency 5 is not reported (55 percent is rounded
    up), and frequency 0 raises. *)
Theorem C126_progress_missed_refuted (logger op : string) (w : world) :
  w_mode w = Normal ->
  multiple_percent 5 11 20 /\ ~ logs_progress logger 11 20 op 5 w /\
  forall current total, (0 < total)%Z -> snd (log_progress logger current total op 0 w) = Err ZeroDivisionError.
Proof.
  intro N. split; [exists 11%Z; reflexivity|]. split.
  - intros (lev & E). unfold log_progress, is_quiet, is_verbose in E. rewrite N in E.
    assert (D : divides 5 (percentage 11 20) || (11 =? 20)%Z = false) by (vm_compute; reflexivity).
    replace (20 <=? 0)%Z with false in E by reflexivity. replace (5 =? 0)%Z with false in E by reflexivity. rewrite D in E. cbn [fst] in E.
    assert (L : length (w_log w) = length (w_log w ++ [mkEntry logger lev (Progress op 11 20)])) by (rewrite <- E; reflexivity).
    rewrite app_length in L. cbn in L. lia.
  - intros c t T. unfold log_progress, is_quiet. rewrite N. destruct (Z.leb_spec t 0); [lia|]. reflexivity.
Qed.
Print Assumptions C126_progress_missed_refuted.

(** What a call outside quiet mode does, for totals up to 2^44 and a clock that does
    not read zero: never raises, adds at most one record; any record is for a
    multiple of [frequency] percent or for completion; with frequency 10 (the
    default), 20, 25, 30, 40 or 50 exactly the multiples are recorded.  Missing from
    the full claim: other frequencies. *)
Theorem C126_progress_partial (logger op : string) (current total freq : Z) (w : world) :
  w_mode w <> Quiet -> (0 <= current <= total)%Z -> (0 < total <= 2 ^ 44)%Z -> (0 < freq)%Z ->
  (w_mode w = Verbose -> ~ (w_clock w (w_ticks w) == 0)%Q) ->
  snd (log_progress logger current total op freq w) = Ok tt /\
  (logs_progress logger current total op freq w \/ fst (log_progress logger current total op freq w) = w) /\
  (logs_progress logger current total op freq w -> multiple_percent freq current total \/ current = total) /\
  (In freq [10; 20; 25; 30; 40; 50]%Z -> (multiple_percent freq current total \/ current = total -> logs_progress logger current total op freq w)).
Proof.
  intros NQ C T F V.
  assert (Yes : divides freq (percentage current total) || (current =? total)%Z = true ->
    snd (log_progress logger current total op freq w) = Ok tt /\ logs_progress logger current total op freq w).
  { intro D. unfold logs_progress, log_progress, is_quiet, is_verbose. destruct (Z.leb_spec total 0); [lia|]. destruct (Z.eqb_spec freq 0); [lia|]. rewrite D.
    destruct (w_mode w) eqn:M; [destruct (NQ eq_refl)| |].
    - split; [reflexivity|]. exists INFO. reflexivity.
    - cbn [read_clock]. destruct (Qeq_bool (w_clock w (w_ticks w)) 0) eqn:Q0; [apply Qeq_bool_iff in Q0; destruct (V eq_refl Q0)|].
      split; [reflexivity|]. exists DEBUG. reflexivity. }
  assert (No : divides freq (percentage current total) || (current =? total)%Z = false -> log_progress logger current total op freq w = (w, Ok tt)).
  { intro D. unfold log_progress, is_quiet. destruct (Z.leb_spec total 0); [lia|]. destruct (Z.eqb_spec freq 0); [lia|]. rewrite D.
    destruct (w_mode w); [destruct (NQ eq_refl)| |]; reflexivity. }
  destruct (divides freq (percentage current total) || (current =? total)%Z) eqn:D.
  - destruct (Yes eq_refl) as [A B]. split; [exact A|]. split; [left; exact B|]. split; [|intros _ _; exact B].
    intros _. apply orb_true_iff in D. destruct D as [D|D]; [left|right; apply Z.eqb_eq; exact D].
    apply divides_spec in D; [|exact F]. destruct D as (k & K). exists k. apply percentage_integer in K; assumption.
  - rewrite (No eq_refl). split; [reflexivity|]. split; [right; reflexivity|]. split.
    + intros (lev & E). rewrite (No eq_refl) in E. cbn [fst] in E. exfalso.
      assert (L : length (w_log w) = length (w_log w ++ [mkEntry logger lev (Progress op current total)])) by (rewrite <- E; reflexivity).
      rewrite app_length in L. cbn in L. lia.
    + intros I P. exfalso. apply orb_false_iff in D. destruct D as [D1 D2]. apply Z.eqb_neq in D2. destruct P as [(k & K)|P]; [|contradiction].
      assert (Kr : (0 <= k <= 10)%Z).
      { assert (0 <= k * freq)%Z by nia. assert (k * freq <= 100)%Z by nia. assert (10 <= freq)%Z by (cbn in I; intuition lia). nia. }
      assert (P2 : percentage current total = double (double (inject_Z (k * freq) / 100) * 100)).
      { unfold percentage. f_equal. f_equal. apply double_eq. assert (Nt : ~ (inject_Z total == 0)%Q) by (intro Z0; unfold Qeq in Z0; cbn in Z0; lia).
        assert (E : (inject_Z current * 100 == inject_Z (k * freq) * inject_Z total)%Q).
        { rewrite <- !inject_Z_mult. change 100%Q with (inject_Z 100). rewrite <- inject_Z_mult. apply inject_Z_injective. lia. }
        assert (E2 : (inject_Z current == (inject_Z (k * freq) * inject_Z total) / 100)%Q) by (rewrite <- E; field). rewrite E2. field. exact Nt. }
      rewrite P2 in D1.
      assert (Ck : In k [0; 1; 2; 3; 4; 5; 6; 7; 8; 9; 10]%Z) by (cbn; lia).
      assert (G : forallb (fun f => forallb (fun k => (100 <? k * f)%Z || divides f (double (double (inject_Z (k * f) / 100) * 100))) [0; 1; 2; 3; 4; 5; 6; 7; 8; 9; 10]%Z) [10; 20; 25; 30; 40; 50]%Z = true)
        by (vm_compute; reflexivity).
      rewrite forallb_forall in G. specialize (G freq I). rewrite forallb_forall in G. specialize (G k Ck).
      rewrite D1, orb_false_r in G. apply Z.ltb_lt in G. nia.
Qed.
Print Assumptions C126_progress_partial.

(** Quiet mode and empty totals are silent. *)
Theorem C126_silent (logger op : string) (current total freq : Z) (w : world) :
  w_mode w = Quiet \/ (total <= 0)%Z -> log_progress logger current total op freq w = (w, Ok tt).
Proof.
  intro H. unfold log_progress, is_quiet. destruct H as [->|H]; [reflexivity|].
  destruct (Z.leb_spec total 0); [|lia]. destruct (w_mode w); reflexivity.
Qed.
Print Assumptions C126_silent.
Example C126_case : map e_note (w_log (fst (log_progress "m" 3 30 "Tracking" 10 (quiet_clock Normal)))) = [Progress "Tracking" 3 30] /\
  w_log (fst (log_progress "m" 4 30 "Tracking" 10 (quiet_clock Normal))) = [].
Proof. split; vm_compute; reflexivity. Qed.

(** ** C127: dask information *)

(** As claimed, log_dask_info reports shape and chunks.  False for every Dataset
    (no shape), including the result of preprocess_data (detect.py 815). *)
Theorem C127_datasets_are_not_described_refuted (logger msg : string) (dask : bool) (g : option exn) (w : world) :
  w_log (fst (log_dask_info logger (mkObject true false dask g) msg w)) = w_log w ++ [mkEntry logger DEBUG (NoDaskInfo AttributeErr)].
Proof. reflexivity. Qed.
Print Assumptions C127_datasets_are_not_described_refuted.

(** It never raises and changes nothing but the log, to which it adds at most two
    records, none above DEBUG; arrays are described. *)
Theorem C127_dask_info_is_harmless_partial (logger msg : string) (o : object_info) (w : world) :
  snd (log_dask_info logger o msg w) = Ok tt /\ only_logged w (fst (log_dask_info logger o msg w)) /\
  (exists added, w_log (fst (log_dask_info logger o msg w)) = w_log w ++ added /\ length added <= 2 /\
     (forall e, In e added -> e_level e = DEBUG /\ e_logger e = logger) /\
     (has_chunks o = true -> has_shape o = true -> In (mkEntry logger DEBUG (DaskShape msg)) added) /\
     (has_chunks o = false -> added = [])).
Proof.
  unfold log_dask_info. destruct o as [[] [] [] [e|]]; cbn [has_chunks has_shape is_dask graph_fails].
  all: split; [reflexivity|]; split; [first [apply only_logged_refl|apply logged_record|eapply only_logged_trans; apply logged_record]|].
  all: cbn [fst record_entry w_log]; rewrite <- ?app_assoc; cbn [app].
  all: first [eexists; split; [reflexivity|] | exists []; split; [symmetry; apply app_nil_r|]].
  all: split; [cbn; lia|]; split; [intros x X; cbn in X; intuition (subst; auto)|].
  all: split; [intros; try discriminate; left; reflexivity|intros; try discriminate; reflexivity].
Qed.
Print Assumptions C127_dask_info_is_harmless_partial.
Example C127_case : map e_note (w_log (fst (log_dask_info "m" (mkObject true true true None) "Input data" (quiet_clock Normal)))) = [DaskShape "Input data"; DaskGraph].
Proof. reflexivity. Qed.
