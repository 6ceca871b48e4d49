(* Model of znet/router.go and the registration part of znet/msghandler.go and
   znet/server.go: which handlers a message ID gets.  Handlers are elements of an
   arbitrary type; slices live on a heap so that sharing would show. *)
From Coq Require Import ZArith List Bool Arith.
From Verif Require Import GoSlice.
Import ListNotations.

Section Router.
  Context {A : Type}.
  Variable zero : A.
  Variable grow : nat -> nat -> nat.

  (* znet/router.go 81-86: GroupRouter. *)
  Record group := Group { gr_start : Z; gr_end : Z; gr_handlers : slice }.

  (* znet/router.go 42-46: RouterSlices; plus the groups created and the slices
     the user passed, which stay in the user's hands. *)
  Record rtab := Rtab {
    rt_heap : @heap A;
    rt_handlers : slice;                (* Handlers *)
    rt_apis : list (Z * slice);         (* Apis *)
    rt_groups : list group;
    rt_user : list slice
  }.

  Definition with_heap (t : rtab) (h : heap) : rtab :=
    {| rt_heap := h; rt_handlers := rt_handlers t; rt_apis := rt_apis t;
       rt_groups := rt_groups t; rt_user := rt_user t |}.

  (* znet/router.go 48-53: NewRouterSlices. *)
  Definition new_router_slices : rtab :=
    let '(h, s) := sl_make zero [] 0 6 in
    {| rt_heap := h; rt_handlers := s; rt_apis := []; rt_groups := []; rt_user := [] |}.

  Fixpoint api_lookup (id : Z) (l : list (Z * slice)) : option slice :=
    match l with
    | [] => None
    | (k, s) :: l' => if Z.eqb k id then Some s else api_lookup id l'
    end.

  (* znet/router.go 55-57: Use (msghandler.go 378-381). *)
  Definition use (t : rtab) (arg : slice) : rtab :=
    let '(h, s) := sl_append zero grow (rt_heap t) (rt_handlers t) (sl_read (rt_heap t) arg) in
    {| rt_heap := h; rt_handlers := s; rt_apis := rt_apis t;
       rt_groups := rt_groups t; rt_user := rt_user t |}.

  (* znet/router.go 59-70: RouterSlices.AddHandler; None is the panic. *)
  Definition add_handler (t : rtab) (id : Z) (arg : slice) : option rtab :=
    match api_lookup id (rt_apis t) with
    | Some _ => None
    | None =>
      let h := rt_heap t in
      let '(h1, merged) := sl_make zero h (sl_len (rt_handlers t) + sl_len arg) 0 in
      let h2 := sl_copy h1 merged (sl_read h1 (rt_handlers t)) in
      let h3 := sl_copy h2 (sl_from merged (sl_len (rt_handlers t))) (sl_read h2 arg) in
      let '(h4, s) := sl_append zero grow h3 nil_slice (sl_read h3 merged) in
      Some {| rt_heap := h4; rt_handlers := rt_handlers t;
              rt_apis := (id, s) :: rt_apis t;
              rt_groups := rt_groups t; rt_user := rt_user t |}
    end.

  (* znet/router.go 72-77: GetHandlers. *)
  Definition get_handlers (t : rtab) (id : Z) : option (list A) :=
    match api_lookup id (rt_apis t) with
    | Some s => Some (sl_read (rt_heap t) s)
    | None => None
    end.

  (* znet/router.go 79-81, 90-99: Group / NewGroup. *)
  Definition new_group (t : rtab) (start_ end_ : Z) (arg : slice) : rtab :=
    let '(h1, s) := sl_make zero (rt_heap t) 0 (sl_len arg) in
    let '(h2, s2) := sl_append zero grow h1 s (sl_read h1 arg) in
    {| rt_heap := h2; rt_handlers := rt_handlers t; rt_apis := rt_apis t;
       rt_groups := rt_groups t ++ [{| gr_start := start_; gr_end := end_; gr_handlers := s2 |}];
       rt_user := rt_user t |}.

  (* znet/router.go 101-103: GroupRouter.Use on group number g. *)
  Definition group_use (t : rtab) (g : nat) (arg : slice) : option rtab :=
    match nth_error (rt_groups t) g with
    | None => None
    | Some gr =>
      let '(h, s) := sl_append zero grow (rt_heap t) (gr_handlers gr) (sl_read (rt_heap t) arg) in
      Some {| rt_heap := h; rt_handlers := rt_handlers t; rt_apis := rt_apis t;
              rt_groups := set_nth g {| gr_start := gr_start gr; gr_end := gr_end gr; gr_handlers := s |}
                                   (rt_groups t);
              rt_user := rt_user t |}
    end.

  (* znet/router.go 105-116: GroupRouter.AddHandler on group number g. *)
  Definition group_add_handler (t : rtab) (g : nat) (id : Z) (arg : slice) : option rtab :=
    match nth_error (rt_groups t) g with
    | None => None
    | Some gr =>
      if (Z.ltb id (gr_start gr) || Z.ltb (gr_end gr) id)%bool then None
      else
        let h := rt_heap t in
        let '(h1, merged) := sl_make zero h (sl_len (gr_handlers gr) + sl_len arg) 0 in
        let h2 := sl_copy h1 merged (sl_read h1 (gr_handlers gr)) in
        let h3 := sl_copy h2 (sl_from merged (sl_len (gr_handlers gr))) (sl_read h2 arg) in
        add_handler (with_heap t h3) id merged
    end.

  (* What a program can do: build or overwrite slices of its own and pass them
     (variadic f(s...)) to the registration calls. *)
  Inductive rop :=
  | OpSlice (hs : list A)                  (* s := []RouterHandler{...} *)
  | OpWrite (i k : nat) (x : A)            (* s_i[k] = x *)
  | OpUse (i : nat)                        (* Use(s_i...) *)
  | OpGroup (a b : Z) (i : nat)            (* Group(a, b, s_i...) *)
  | OpGroupUse (g i : nat)                 (* group_g.Use(s_i...) *)
  | OpAdd (id : Z) (i : nat)               (* AddHandler / AddRouterSlices(id, s_i...) *)
  | OpGroupAdd (g : nat) (id : Z) (i : nat). (* group_g.AddHandler(id, s_i...) *)

  (* One operation: the new table, and whether the call panicked (the caller may
     recover, so the program goes on).  An index of a slice or group that does
     not exist is no operation. *)
  Definition rstep (t : rtab) (o : rop) : rtab * bool :=
    let arg i := nth_error (rt_user t) i in
    let panicking r := match r with Some t' => (t', false) | None => (t, true) end in
    match o with
    | OpSlice hs =>
      ({| rt_heap := rt_heap t ++ [hs]; rt_handlers := rt_handlers t; rt_apis := rt_apis t;
          rt_groups := rt_groups t;
          rt_user := rt_user t ++ [{| sl_arr := length (rt_heap t); sl_off := 0;
                                      sl_len := length hs; sl_cap := length hs |}] |}, false)
    | OpWrite i k x =>
      match arg i with
      | Some s => if k <? sl_len s then (with_heap t (sl_write (rt_heap t) s k [x]), false) else (t, true)
      | None => (t, false)
      end
    | OpUse i => match arg i with Some s => (use t s, false) | None => (t, false) end
    | OpGroup a b i => match arg i with Some s => (new_group t a b s, false) | None => (t, false) end
    | OpGroupUse g i =>
      match arg i, nth_error (rt_groups t) g with
      | Some s, Some _ => panicking (group_use t g s)
      | _, _ => (t, false)
      end
    | OpAdd id i => match arg i with Some s => panicking (add_handler t id s) | None => (t, false) end
    | OpGroupAdd g id i =>
      match arg i, nth_error (rt_groups t) g with
      | Some s, Some _ => panicking (group_add_handler t g id s)
      | _, _ => (t, false)
      end
    end.

  (* A program; the list says which calls panicked. *)
  Fixpoint rrun (t : rtab) (os : list rop) : rtab * list bool :=
    match os with
    | [] => (t, [])
    | o :: os' =>
      let '(t1, b) := rstep t o in
      let '(t2, bs) := rrun t1 os' in (t2, b :: bs)
    end.
End Router.
Arguments rtab : clear implicits.
Arguments rop : clear implicits.

(* znet/msghandler.go 354-365: AddRouter, the three phase table; None is the
   panic on a repeated ID. *)
Definition add_router {R} (apis : list (Z * R)) (id : Z) (r : R) : option (list (Z * R)) :=
  match find (fun p => Z.eqb (fst p) id) apis with
  | Some _ => None
  | None => Some ((id, r) :: apis)
  end.
Definition find_router {R} (apis : list (Z * R)) (id : Z) : option R :=
  match find (fun p => Z.eqb (fst p) id) apis with Some p => Some (snd p) | None => None end.
