(** Syncs in which the building of a record raises: RecordVersions.build and generate_index_ops (indexing/index.py:205-321) with a parser that
    can raise, sync and resync_arcs (manager.py:441-558) around them. The operations are made one after the other while they are sent, so
    those of the records before the one that raises may have been carried out. *)
From Coq Require Import List ZArith NArith Bool Lia.
From Verif Require Import PyVal Diff Mongo Client Index Sync.
Import ListNotations.
Open Scope nat_scope.

Section Raises.
(** [parse] is [parse(data, options)] (indexing/parser.py:23-53), [None] if it raises (modelled in Parser.v, see C75) *)
Context {O P : Type} (parse : dict -> O -> option P) (peq : P -> P -> bool).

(** indexing/index.py:226-246, as [Index.build_step]; [None]: an exception *)
Definition build_step_r (first : Z) (all_data : list (Z * dict)) (all_opts : list (Z * O))
    (st : option (dict * O * list (rv P))) (v : Z) : option (dict * O * list (rv P)) :=
  match st with
  | None => None
  | Some (data, opts, acc) =>
      if (v <? first)%Z then st
      else
        let data := match zget all_data v with Some x => x | None => data end in
        let opts := match zget all_opts v with Some o => o | None => opts end in
        if match data with [] => true | _ => false end then
          match acc with
          | [] => None
          | r :: rest => Some (data, opts, match rv_del r with
                                           | None => RV (rv_ver r) (rv_parsed r) (Some v) :: rest
                                           | Some _ => acc end)
          end
        else
          match parse data opts with
          | None => None
          | Some p =>
              let doc := RV v p None in
              Some (data, opts, match acc with
                                | [] => [doc]
                                | r :: _ => if rv_eqb peq doc r then acc else doc :: acc end)
          end
  end.
(** indexing/index.py:205-248 [RecordVersions.build], as [Index.build] *)
Definition build_r (all_data : list (Z * dict)) (all_opts : list (Z * O)) : option (list (rv P)) :=
  match zmin_key all_data, zmin_key all_opts with
  | Some fd, Some fo =>
      match zget all_data fd, zget all_opts fo with
      | Some data, Some opts =>
          match fold_left (build_step_r fd all_data all_opts)
                  (zsorted_set (zkeys all_opts ++ zkeys all_data)) (Some (data, opts, [])) with
          | Some (_, _, acc) => Some (rev acc)
          | None => None
          end
      | _, _ => None
      end
  | _, _ => None
  end.

(** indexing/index.py:260-321 [generate_index_ops] on the documents found: the operations made, and whether it then raises *)
Fixpoint gen_until (cap : N) (after : option Z) (all_opts : list (Z * O)) (st : N * N) (ds : list doc) : list (bop P) * bool :=
  match ds with
  | [] => ([], false)
  | d :: rest =>
      match rec_hist d with
      | None => ([], true)
      | Some h =>
          match build_r h all_opts with
          | None => ([], true)
          | Some rvs =>
              let '(st1, ops1) := gen_rvs cap after (d_id d) st rvs in
              let '(ops2, raises) := gen_until cap after all_opts st1 rest in (ops1 ++ ops2, raises)
          end
      end
  end.
(** manager.py:428-439: the committed documents whose version passes [f] *)
Definition found (f : Z -> bool) (c : coll) : list doc := filter (fun d => match d_ver d with Some v => f v | None => false end) c.

(** manager.py:441-515 [sync]: it returns early, raises before it writes, or writes operations and then perhaps raises *)
Inductive planned := PNothing | PRaises | PWrites (e : es P) (ops : list (bop P)) (raises : bool).
(** manager.py:473-515 *)
Definition plan_r (cap : N) (c : coll) (all_opts : list (Z * O)) (committed : option Z) (resync : bool) (e : es P) : planned :=
  if negb (has_data c) then PNothing
  else
    let last_sync := if resync then None else es_version e in
    let go (f : Z -> bool) :=
      let e1 := if resync then delete_arcs e else e in
      let '(ops, raises) := gen_until cap last_sync all_opts (get_arc_status e1) (found f c) in PWrites e1 ops raises in
    match last_sync with
    | None => go (fun _ => true)
    | Some ls =>
        match committed with
        | None => PRaises
        | Some cv =>
            if (cv <=? ls)%Z then PNothing
            else if existsb (fun v => (ls <? v)%Z) (zkeys all_opts) then go (fun _ => true)
            else go (fun v => (ls <? v)%Z)
        end
    end.
(** manager.py:441-515 with what the client has *)
Definition sync_plan_r (cap : N) (cl : client O) (name : pystr) (resync : bool) (e : es P) : planned :=
  plan_r cap (data cl name) (get_options cl name) (get_committed_version cl name) resync e.

(** Whether it raises, and the indices then. When it raises among the operations, any part of those made before has been carried out and
    the indices of any of them have been set up (indexing/syncing.py:166-179); there is no refresh. *)
Inductive sync_run (cap : N) (cl : client O) (name : pystr) (resync : bool) (e : es P) : bool -> es P -> Prop :=
| run_nothing : sync_plan_r cap cl name resync e = PNothing -> sync_run cap cl name resync e false e
| run_at_once : sync_plan_r cap cl name resync e = PRaises -> sync_run cap cl name resync e true e
| run_done e1 ops : sync_plan_r cap cl name resync e = PWrites e1 ops false -> sync_run cap cl name resync e false (write_ops ops e1)
| run_raises e1 ops some more : sync_plan_r cap cl name resync e = PWrites e1 ops true -> incl some ops -> incl more ops ->
    sync_run cap cl name resync e true (write_live some (setup more e1)).
(** manager.py:517-558 [resync_arcs] *)
Inductive arcs_run (cap : N) (cl : client O) (name : pystr) (e : es P) : bool -> es P -> Prop :=
| arcs_done ops : gen_until cap None (get_options cl name) (get_arc_status (delete_arcs e)) (found (fun _ => true) (data cl name)) = (ops, false) ->
    arcs_run cap cl name e false (write_ops (filter (@is_arc_op P) ops) (delete_arcs e))
| arcs_raises ops some more : gen_until cap None (get_options cl name) (get_arc_status (delete_arcs e)) (found (fun _ => true) (data cl name)) = (ops, true) ->
    incl some (filter (@is_arc_op P) ops) -> incl more (filter (@is_arc_op P) ops) -> arcs_run cap cl name e true (write_live some (setup more (delete_arcs e))).

(** ** Relation to the parser that does not raise *)
(** With a total parser that agrees with [parse] where it does not raise. *)
Section Total.
Variable parse0 : dict -> O -> P.
Hypothesis agrees : forall d o p, parse d o = Some p -> parse0 d o = p.
Lemma step_total first dm om st v st' : build_step_r first dm om st v = Some st' -> build_step parse0 peq first dm om st v = Some st'.
Proof.
  unfold build_step_r, build_step. destruct st as [[[d o] acc]|]; [|discriminate]. destruct (v <? first)%Z; [auto|]. cbn zeta.
  destruct (match zget dm v with Some x => x | None => d end) as [|kv d']; [auto|]. destruct (parse _ _) as [p|] eqn:E; [|discriminate]. rewrite (agrees _ _ _ E). auto.
Qed.
Lemma fold_none first dm om vs : fold_left (build_step_r first dm om) vs None = None.
Proof. induction vs; auto. Qed.
Lemma fold_total first dm om vs : forall st st', fold_left (build_step_r first dm om) vs st = Some st' -> fold_left (build_step parse0 peq first dm om) vs st = Some st'.
Proof.
  induction vs as [|v vs IH]; intros st st' H; [exact H|]. cbn [fold_left] in *. destruct (build_step_r first dm om st v) as [st1|] eqn:E; [|rewrite fold_none in H; discriminate].
  rewrite (step_total _ _ _ _ _ _ E). apply IH, H.
Qed.
Lemma build_total_r dm om rvs : build_r dm om = Some rvs -> build parse0 peq dm om = Some rvs.
Proof.
  unfold build_r, build. destruct (zmin_key dm); [|discriminate]. destruct (zmin_key om); [|discriminate]. destruct (zget dm _); [|discriminate]. destruct (zget om _); [|discriminate].
  destruct (fold_left (build_step_r _ _ _) _ _) as [[[dd oo] acc]|] eqn:E; [|discriminate]. rewrite (fold_total _ _ _ _ _ _ E). auto.
Qed.
Lemma gen_total cap after om c f : forall st ops, gen_until cap after om st (found f c) = (ops, false) ->
  exists recs st', find_records f c = Some recs /\ gen_ops parse0 peq cap after om st recs = Some (st', ops).
Proof.
  induction c as [|d c IH]; intros st ops H; cbn [found filter find_records] in *; [cbn in H; injection H as <-; exists [], st; split; reflexivity|].
  fold (found f c) in *. destruct (match d_ver d with Some v => f v | None => false end); [|exact (IH st ops H)]. cbn [gen_until] in H. destruct (rec_hist d) as [h|]; [|discriminate].
  destruct (build_r h om) as [rvs|] eqn:Eb; [|discriminate]. destruct (gen_rvs cap after (d_id d) st rvs) as [st1 ops1] eqn:Eg. destruct (gen_until cap after om st1 (found f c)) as [ops2 r] eqn:Eu.
  injection H as <- ->. destruct (IH st1 ops2 Eu) as (recs & st' & -> & Eo). exists ((d_id d, h) :: recs), st'. split; [reflexivity|]. cbn [gen_ops]. rewrite (build_total_r _ _ _ Eb), Eg, Eo. reflexivity.
Qed.
(** A sync that does not raise is the one of Sync.v. *)
Lemma plan_total cap c om cv resync e e1 ops : plan_r cap c om cv resync e = PWrites e1 ops false -> plan parse0 peq cap c om cv resync e = Some (Some (e1, ops)).
Proof.
  unfold plan_r, plan. destruct (negb (has_data c)); [discriminate|].
  assert (G : forall f ls, (let '(ops, r) := gen_until cap ls om (get_arc_status (if resync then delete_arcs e else e)) (found f c) in PWrites (if resync then delete_arcs e else e) ops r) = PWrites e1 ops false ->
    match find_records f c with
    | Some recs => match gen_ops parse0 peq cap ls om (get_arc_status (if resync then delete_arcs e else e)) recs with Some (_, ops) => Some (Some (if resync then delete_arcs e else e, ops)) | None => None end
    | None => None end = Some (Some (e1, ops))).
  { intros f ls H. destruct (gen_until _ _ _ _ _) as [o r] eqn:E. injection H as <- -> ->. destruct (gen_total _ _ _ _ _ _ _ E) as (recs & st' & -> & ->). reflexivity. }
  cbn zeta. destruct (if resync then None else es_version e) as [ls|] eqn:El; [|apply G]. destruct cv as [cv|]; [|discriminate]. destruct (cv <=? ls)%Z; [discriminate|].
  destruct (existsb _ _); apply G.
Qed.
Theorem run_total cap cl name resync e e' : sync_run cap cl name resync e false e' -> sync parse0 peq cap cl name resync e = Some e'.
Proof.
  intro H. inversion H as [E| |e1 ops E|]; subst; unfold sync, sync_plan, sync_plan_r in *.
  - unfold plan_r, plan in *. destruct (negb _); [reflexivity|]. cbn zeta in *. destruct (if resync then None else es_version e') as [ls|]; [|destruct (gen_until _ _ _ _ _); discriminate].
    destruct (get_committed_version cl name) as [cv|]; [|discriminate]. destruct (cv <=? ls)%Z; [reflexivity|]. destruct (existsb _ _); destruct (gen_until _ _ _ _ _); discriminate.
  - rewrite (plan_total _ _ _ _ _ _ _ _ E). reflexivity.
Qed.
End Total.
End Raises.
