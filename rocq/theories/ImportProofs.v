From Coq Require Import List Bool String Arith Lia.
From Verif Require Import ImportModel ImportSpec.
Import ListNotations.
Open Scope string_scope.
Open Scope list_scope.

Definition kind_of (i : item) : kind := match i with IFile => KFile | IDir _ => KDir end.
Definition kind_at (t : item) (p : list string) : option kind := option_map kind_of (at_path t p).

(** No two entries of a directory have the same name. *)
Definition unique (t : item) : Prop := forall d, NoDup (map fst (entries t d)).

(** ** Lookups *)

Lemma get_cons : forall n m i r, get n ((m, i) :: r) = if m =? n then Some i else get n r.
Proof. intros n m i r. unfold get. cbn. destruct (m =? n); reflexivity. Qed.

Lemma get_notin : forall n es, ~ In n (map fst es) -> get n es = None.
Proof.
  induction es as [|[m i] r IH]; intros H; [reflexivity|]. rewrite get_cons. cbn in H.
  destruct (String.eqb_spec m n) as [E|E]; [tauto|]. apply IH. tauto.
Qed.

Lemma at_path_app : forall p q t, at_path t (p ++ q) = match at_path t p with Some i => at_path i q | None => None end.
Proof.
  induction p as [|n p IH]; intros q t; [reflexivity|]. cbn. destruct t as [|es]; [reflexivity|].
  destruct (get n es) as [i|]; [apply IH|reflexivity].
Qed.

Lemma at_path_snoc : forall t d n, at_path t (d ++ [n]) = get n (entries t d).
Proof.
  intros t d n. rewrite at_path_app. unfold entries. destruct (at_path t d) as [[|es]|]; cbn; try reflexivity.
  destruct (get n es); reflexivity.
Qed.

Definition is_file (k : option kind) : bool := match k with Some KFile => true | _ => false end.
Definition is_dir (k : option kind) : bool := match k with Some KDir => true | _ => false end.

Lemma is_file_iff : forall k, is_file k = true <-> k = Some KFile.
Proof. destruct k as [[|]|]; cbn; split; congruence. Qed.
Lemma is_dir_iff : forall k, is_dir k = true <-> k = Some KDir.
Proof. destruct k as [[|]|]; cbn; split; congruence. Qed.

Lemma lookup_file_kind : forall t d n, lookup_file (entries t d) n = is_file (kind_at t (d ++ [n])).
Proof. intros t d n. unfold lookup_file, kind_at. rewrite at_path_snoc. destruct (get n (entries t d)) as [[|es]|]; reflexivity. Qed.

Lemma below_file : forall t p q, q <> [] -> kind_at t (p ++ q) <> None -> kind_at t p = Some KDir.
Proof.
  intros t p q Q H. unfold kind_at in *. rewrite at_path_app in H. destruct (at_path t p) as [[|es]|]; cbn in *; try congruence.
  destruct q; [congruence|]. cbn in H. congruence.
Qed.

(** ** The [__init__] file *)

Lemma init_loop_spec : forall es b, NoDup (map fst es) ->
  init_loop es b = (lookup_file es INIT_PYI, snd (init_loop es b)) /\
  (lookup_file es INIT_PYI = false -> snd (init_loop es b) = b || lookup_file es INIT_PY).
Proof.
  unfold lookup_file.
  induction es as [|[n i] r IH]; intros b N.
  - cbn. split; [reflexivity|]. intros _. rewrite orb_false_r. reflexivity.
  - rewrite !get_cons. cbn in N. inversion N as [|? ? Ni N' Ex]. subst.
    destruct i as [|es].
    + cbn. destruct (String.eqb_spec n INIT_PYI) as [E|E].
      * cbn. split; [reflexivity|discriminate].
      * destruct (String.eqb_spec n INIT_PY) as [E1|E1].
        -- destruct (IH true N') as [A B]. rewrite A. cbn. split; [reflexivity|]. intros H. rewrite (B H), orb_true_r. reflexivity.
        -- destruct (IH b N') as [A B]. rewrite A. cbn. split; [reflexivity|]. intros H. exact (B H).
    + cbn. destruct (IH b N') as [A B]. rewrite A. cbn.
      assert (K : forall m, (if n =? m then match @Some item (IDir es) with Some IFile => true | _ => false end
                             else match get m r with Some IFile => true | _ => false end)
                  = match get m r with Some IFile => true | _ => false end).
      { intros m. destruct (String.eqb_spec n m) as [E|E]; [|reflexivity]. subst m. rewrite (get_notin n r Ni). reflexivity. }
      assert (K1 := K INIT_PYI). assert (K2 := K INIT_PY).
      split.
      * f_equal. destruct (n =? INIT_PYI); congruence.
      * intros H. rewrite B.
        -- f_equal. destruct (n =? INIT_PY); congruence.
        -- destruct (n =? INIT_PYI); congruence.
Qed.

Lemma snoc_snoc : forall (d : list string) a b, (d ++ [a]) ++ [b] = d ++ [a; b].
Proof. intros d a b. rewrite <- app_assoc. reflexivity. Qed.

Lemma load_init_spec : forall t name d, unique t ->
  load_init_file t (d ++ [name]) =
    if is_file (kind_at t (stub_init name d)) then (Some (stub_init name d), [Depends (stub_init name d)])
    else if is_file (kind_at t (source_init name d))
    then (Some (source_init name d), [Absent (stub_init name d); Depends (source_init name d)])
    else (None, [Absent (stub_init name d); Absent (source_init name d)]).
Proof.
  intros t name d U. unfold load_init_file, stub_init, source_init.
  destruct (init_loop_spec (entries t (d ++ [name])) false (U _)) as [A B]. rewrite A.
  rewrite !lookup_file_kind in *. rewrite !snoc_snoc. rewrite !snoc_snoc in B.
  change (d ++ [name; INIT_PYI]) with (d ++ [name; "__init__.pyi"]) in *.
  change (d ++ [name; INIT_PY]) with (d ++ [name; "__init__.py"]) in *.
  destruct (is_file (kind_at t (d ++ [name; "__init__.pyi"]))); [reflexivity|].
  rewrite (B eq_refl). cbn. destruct (is_file (kind_at t (d ++ [name; "__init__.py"]))); reflexivity.
Qed.

(** ** One directory *)

Lemma append_neq : forall a b, b <> "" -> append a b <> a.
Proof.
  induction a as [|c a IH]; intros b B; cbn; [exact B|]. intros E. injection E as E. exact (IH b B E).
Qed.
Lemma append_inj : forall a b c, append a b = append a c -> b = c.
Proof. induction a as [|x a IH]; cbn; intros b c E; [exact E|]. injection E as E. exact (IH _ _ E). Qed.
Lemma py_pyi : forall name, name_py name <> name_pyi name.
Proof. intros name E. unfold name_py, name_pyi in E. apply append_inj in E. discriminate. Qed.
Lemma name_py_neq : forall name, name_py name <> name.
Proof. intros name. apply append_neq. discriminate. Qed.
Lemma name_pyi_neq : forall name, name_pyi name <> name.
Proof. intros name. apply append_neq. discriminate. Qed.

Definition get_dir (n : string) (es : list (string * item)) : bool := match get n es with Some (IDir _) => true | _ => false end.

Lemma get_dir_kind : forall t d n, get_dir n (entries t d) = is_dir (kind_at t (d ++ [n])).
Proof. intros t d n. unfold get_dir, kind_at. rewrite at_path_snoc. destruct (get n (entries t d)) as [[|es]|]; reflexivity. Qed.

Lemma lookup_file_cons : forall n m i r, lookup_file ((m, i) :: r) n =
  if m =? n then match i with IFile => true | _ => false end else lookup_file r n.
Proof. intros n m i r. unfold lookup_file. rewrite get_cons. destruct (m =? n); [destruct i|]; reflexivity. Qed.
Lemma get_dir_cons : forall n m i r, get_dir n ((m, i) :: r) =
  if m =? n then match i with IDir _ => true | _ => false end else get_dir n r.
Proof. intros n m i r. unfold get_dir. rewrite get_cons. destruct (m =? n); [destruct i|]; reflexivity. Qed.
Lemma lookup_file_notin : forall n es, ~ In n (map fst es) -> lookup_file es n = false.
Proof. intros n es H. unfold lookup_file. rewrite get_notin by exact H. reflexivity. Qed.
Lemma get_dir_notin : forall n es, ~ In n (map fst es) -> get_dir n es = false.
Proof. intros n es H. unfold get_dir. rewrite get_notin by exact H. reflexivity. Qed.

Section One.
  Variables (t : item) (follow : bool) (name : string) (stubs : bool).

  Lemma exact_loop_spec : forall needs dir es s, needs && negb follow = false -> NoDup (map fst es) ->
    (get_dir name es = true -> forall f regs, load_init_file t (dir ++ [name]) = (Some f, regs) ->
       exists s', exact_loop t follow name stubs needs dir es s = (Some (RFile f), s') /\ s_regs s' = s_regs s ++ regs) /\
    ((get_dir name es = true -> fst (load_init_file t (dir ++ [name])) = None) ->
       exact_loop t follow name stubs needs dir es s =
       (None, mk_state (if lookup_file es (name_py name) then Some (dir ++ [name_py name]) else s_py s)
                (if stubs && lookup_file es (name_pyi name) then Some (dir ++ [name_pyi name]) else s_stub s)
                (s_ns s ++ if get_dir name es then [dir ++ [name]] else [])
                (s_had s || get_dir name es)
                (s_regs s ++ if get_dir name es then snd (load_init_file t (dir ++ [name])) else []))).
  Proof.
    intros needs dir es. induction es as [|[n i] r IH]; intros s U N.
    - split; [discriminate|]. intros _. cbn. rewrite andb_false_r, orb_false_r, !app_nil_r. destruct s; reflexivity.
    - cbn in N. inversion N as [|? ? Ni N' Ex]. subst.
      rewrite !lookup_file_cons, !get_dir_cons. destruct i as [|sub]; cbn [exact_loop].
      + (* a file *)
        assert (D : (if n =? name then false else get_dir name r) = get_dir name r).
        { destruct (String.eqb_spec n name) as [E|E]; [|reflexivity]. subst n. rewrite get_dir_notin by exact Ni. reflexivity. }
        rewrite D.
        destruct (String.eqb_spec n (name_py name)) as [E|E].
        * subst n. cbn [orb]. unfold file_imports. rewrite U.
          rewrite (proj2 (String.eqb_neq _ _) (py_pyi name)).
          set (s1 := mk_state (Some (dir ++ [name_py name])) (s_stub s) (s_ns s) (s_had s) (s_regs s)).
          destruct (IH s1 U N') as [A B]. split; [exact A|]. intros H. rewrite (B H).
          rewrite (lookup_file_notin (name_py name) r Ni). reflexivity.
        * cbn [orb]. destruct (String.eqb_spec n (name_pyi name)) as [E1|E1].
          -- subst n. destruct stubs.
             ++ cbn [andb]. unfold file_imports. rewrite U.
                set (s1 := mk_state (s_py s) (Some (dir ++ [name_pyi name])) (s_ns s) (s_had s) (s_regs s)).
                destruct (IH s1 U N') as [A B]. split; [exact A|]. intros H. rewrite (B H).
                rewrite (lookup_file_notin (name_pyi name) r Ni). reflexivity.
             ++ cbn [andb]. destruct (IH s U N') as [A B]. split; [exact A|]. intros H. rewrite (B H). reflexivity.
          -- rewrite andb_false_r. destruct (IH s U N') as [A B]. split; [exact A|]. intros H. rewrite (B H). reflexivity.
      + (* a directory *)
        assert (K : forall m, (if n =? m then false else lookup_file r m) = lookup_file r m).
        { intros m. destruct (String.eqb_spec n m) as [E|E]; [|reflexivity]. subst m. rewrite lookup_file_notin by exact Ni. reflexivity. }
        rewrite !K. destruct (String.eqb_spec n name) as [E|E].
        * subst n. unfold directory_imports. destruct (load_init_file t (dir ++ [name])) as [[f|] regs] eqn:L.
          -- rewrite U. cbn [andb]. split.
             ++ intros _ f' regs' H. injection H as <- <-. eexists. split; [reflexivity|]. reflexivity.
             ++ intros H. specialize (H eq_refl). discriminate.
          -- split; [intros _ f' regs' H; discriminate|]. intros _.
             match goal with |- exact_loop _ _ _ _ _ _ _ ?S = _ => set (s1 := S) end.
             destruct (IH s1 U N') as [_ B]. rewrite get_dir_notin in B by exact Ni. rewrite B by discriminate.
             unfold s1. cbn. rewrite !app_nil_r, orb_true_r. reflexivity.
        * destruct (IH s U N') as [A B]. split; [exact A|]. intros H. rewrite (B H). reflexivity.
  Qed.

  Inductive outcome := Found (r : result) (regs : list reg) | Go (regs : list reg).

  Definition fs := kind_at t.

  (** What one directory contributes. *)
  Definition one (x : list string * bool) : outcome :=
    let d := fst x in
    let u := snd x && negb follow in
    let typed f := if u && (match fs (d ++ [name; "py.typed"]) with None => true | _ => false end) then RUntyped f else RFile f in
    if is_file (fs (stub_init name d)) then Found (typed (stub_init name d)) [Depends (stub_init name d)]
    else if is_file (fs (source_init name d))
    then Found (typed (source_init name d)) [Absent (stub_init name d); Depends (source_init name d)]
    else
      let pre := if is_dir (fs (d ++ [name])) then [Absent (stub_init name d); Absent (source_init name d)] else [] in
      let file f := Found (if u then RUntyped f else RFile f) (pre ++ if u then [] else [Depends f]) in
      if stubs && is_file (fs (stub_file name d)) then file (stub_file name d)
      else if is_file (fs (source_file name d)) then file (source_file name d)
      else Go (pre ++ [Absent (source_file name d)] ++ (if stubs then [Absent (stub_file name d)] else [])
               ++ (if is_dir (fs (d ++ [name])) then [] else [Absent (d ++ [name])])).

  Fixpoint resolve (dirs : list (list string * bool)) (ns : list (list string)) (regs : list reg) : option result * list reg :=
    match dirs with
    | [] => (match ns with [] => None | _ => Some (RNamespace ns) end, regs)
    | x :: r =>
        match one x with
        | Found res g => (Some res, regs ++ g)
        | Go g => resolve r (ns ++ if is_dir (fs (fst x ++ [name])) then [fst x ++ [name]] else []) (regs ++ g)
        end
    end.

  Hypothesis Uniq : unique t.

  Lemma file_is_dir : forall d x, is_file (fs (d ++ [name; x])) = true -> is_dir (fs (d ++ [name])) = true.
  Proof.
    intros d x H. apply is_file_iff in H. apply is_dir_iff. apply (below_file t (d ++ [name]) [x]); [discriminate|].
    rewrite snoc_snoc. unfold fs in H. congruence.
  Qed.

  Lemma no_marker : forall d, match get "py.typed" (entries t (d ++ [name])) with None => true | Some _ => false end
    = match fs (d ++ [name; "py.typed"]) with None => true | _ => false end.
  Proof.
    intros d. unfold fs, kind_at. rewrite <- snoc_snoc, at_path_snoc. destruct (get "py.typed" (entries t (d ++ [name]))); reflexivity.
  Qed.

  Lemma get_dir_match : forall A es (a b : A),
    match get name es with Some (IDir _) => a | _ => b end = if get_dir name es then a else b.
  Proof. intros A es a b. unfold get_dir. destruct (get name es) as [[|]|]; reflexivity. Qed.

  Lemma import_loop_one : forall exact x rest s,
    (exact = true -> snd x && negb follow = false) -> s_py s = None -> s_stub s = None ->
    import_loop t follow name exact stubs (x :: rest) s =
    match one x with
    | Found r g => (Some r, s_regs s ++ g)
    | Go g => import_loop t follow name exact stubs rest
                (mk_state None None (s_ns s ++ if is_dir (fs (fst x ++ [name])) then [fst x ++ [name]] else [])
                   (is_dir (fs (fst x ++ [name]))) (s_regs s ++ g))
    end.
  Proof.
    intros exact [d needs] rest s Ex P S. cbn [import_loop fst snd] in *.
    set (s0 := mk_state (s_py s) (s_stub s) (s_ns s) false (s_regs s)).
    unfold one. cbn [fst snd].
    assert (LI := load_init_spec t name d Uniq). fold fs in LI.
    assert (GD := get_dir_kind t d name). fold fs in GD.
    assert (LP := lookup_file_kind t d (name_py name)). assert (LS := lookup_file_kind t d (name_pyi name)). fold fs in LP, LS.
    change (d ++ [name_py name]) with (source_file name d) in *. change (d ++ [name_pyi name]) with (stub_file name d) in *.
    assert (ID : is_file (fs (stub_init name d)) = true \/ is_file (fs (source_init name d)) = true -> is_dir (fs (d ++ [name])) = true).
    { intros [H|H]; exact (file_is_dir _ _ H). }
    destruct exact.
    - (* all the entries *)
      specialize (Ex eq_refl). rewrite Ex. cbn [andb].
      destruct (exact_loop_spec needs d (entries t d) s0 Ex (Uniq d)) as [A B].
      rewrite GD, LP, LS in *. rewrite LI in A, B.
      change (d ++ [name_py name]) with (source_file name d) in *. change (d ++ [name_pyi name]) with (stub_file name d) in *.
      destruct (is_file (fs (stub_init name d))).
      { destruct (A (ID (or_introl eq_refl)) _ _ eq_refl) as [s' [R Rg]]. rewrite R, Rg. reflexivity. }
      destruct (is_file (fs (source_init name d))).
      { destruct (A (ID (or_intror eq_refl)) _ _ eq_refl) as [s' [R Rg]]. rewrite R, Rg. reflexivity. }
      rewrite B by reflexivity. clear A B. cbn. rewrite P, S.
      destruct (stubs && is_file (fs (stub_file name d))) eqn:E1; [rewrite <- app_assoc; reflexivity|].
      destruct (is_file (fs (source_file name d))) eqn:E2; [rewrite <- app_assoc; reflexivity|].
      rewrite <- app_assoc. reflexivity.
    - (* the lookups *)
      unfold lookups. rewrite get_dir_match, GD, LP, LS. unfold directory_imports. rewrite no_marker.
      change (d ++ [name_py name]) with (source_file name d) in *. change (d ++ [name_pyi name]) with (stub_file name d) in *.
      destruct (is_file (fs (stub_init name d))).
      { rewrite (ID (or_introl eq_refl)), LI. cbn. rewrite <- andb_assoc. reflexivity. }
      destruct (is_file (fs (source_init name d))).
      { rewrite (ID (or_intror eq_refl)), LI. cbn. rewrite <- andb_assoc. reflexivity. }
      rewrite LI. clear ID LI GD LP LS Ex.
      destruct (is_dir (fs (d ++ [name]))); cbn; unfold file_imports;
        destruct (stubs && is_file (fs (stub_file name d))) eqn:E1;
        try (destruct (is_file (fs (source_file name d))) eqn:E2);
        destruct (needs && negb follow); cbn; rewrite ?P, ?S, ?app_nil_r, <- ?app_assoc; cbn; reflexivity.
  Qed.

  Lemma import_loop_resolve : forall exact dirs s,
    (exact = true -> forall x, In x dirs -> snd x && negb follow = false) -> s_py s = None -> s_stub s = None ->
    import_loop t follow name exact stubs dirs s = resolve dirs (s_ns s) (s_regs s).
  Proof.
    intros exact dirs. induction dirs as [|x r IH]; intros s Ex P S.
    - cbn. destruct (s_ns s); reflexivity.
    - rewrite import_loop_one; [|intros E; apply (Ex E); left; reflexivity|exact P|exact S].
      cbn [resolve]. destruct (one x) as [res g|g]; [reflexivity|]. rewrite IH; [reflexivity| |reflexivity|reflexivity].
      intros E y Hy. apply (Ex E). right. exact Hy.
  Qed.
End One.
