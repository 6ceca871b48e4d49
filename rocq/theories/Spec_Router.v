(* What registration should mean: plain lists, no sharing. *)
From Coq Require Import ZArith List Bool.
From Verif Require Import GoSlice Router.
Import ListNotations.

Section Spec.
  Context {A : Type}.

  Record reg := Reg {
    g_global : list A;                       (* handlers added by Use so far *)
    g_groups : list (Z * Z * list A);        (* range and handlers of each group *)
    g_table : list (Z * list A);             (* what each ID is bound to *)
    g_slices : list (list A)                 (* the user's own slices *)
  }.
  Definition empty_reg : reg := {| g_global := []; g_groups := []; g_table := []; g_slices := [] |}.

  Definition bound_to (r : reg) (id : Z) : option (list A) :=
    match find (fun p => Z.eqb (fst p) id) (g_table r) with Some p => Some (snd p) | None => None end.

  (* Binding is refused (panics) when the ID is taken. *)
  Definition bind (r : reg) (id : Z) (hs : list A) : reg * bool :=
    match bound_to r id with
    | Some _ => (r, true)
    | None => ({| g_global := g_global r; g_groups := g_groups r;
                  g_table := (id, hs) :: g_table r; g_slices := g_slices r |}, false)
    end.

  Definition reg_step (r : reg) (o : rop A) : reg * bool :=
    match o with
    | OpSlice hs =>
      ({| g_global := g_global r; g_groups := g_groups r; g_table := g_table r;
          g_slices := g_slices r ++ [hs] |}, false)
    | OpWrite i k x =>
      match nth_error (g_slices r) i with
      | Some s =>
        if Nat.ltb k (length s) then
          ({| g_global := g_global r; g_groups := g_groups r; g_table := g_table r;
              g_slices := set_nth i (set_nth k x s) (g_slices r) |}, false)
        else (r, true)
      | None => (r, false)
      end
    | OpUse i =>
      match nth_error (g_slices r) i with
      | Some s => ({| g_global := g_global r ++ s; g_groups := g_groups r; g_table := g_table r;
                      g_slices := g_slices r |}, false)
      | None => (r, false)
      end
    | OpGroup a b i =>
      match nth_error (g_slices r) i with
      | Some s => ({| g_global := g_global r; g_groups := g_groups r ++ [(a, b, s)];
                      g_table := g_table r; g_slices := g_slices r |}, false)
      | None => (r, false)
      end
    | OpGroupUse g i =>
      match nth_error (g_slices r) i, nth_error (g_groups r) g with
      | Some s, Some (a, b, hs) =>
        ({| g_global := g_global r; g_groups := set_nth g (a, b, hs ++ s) (g_groups r);
            g_table := g_table r; g_slices := g_slices r |}, false)
      | _, _ => (r, false)
      end
    | OpAdd id i =>
      match nth_error (g_slices r) i with
      | Some s => bind r id (g_global r ++ s)
      | None => (r, false)
      end
    | OpGroupAdd g id i =>
      match nth_error (g_slices r) i, nth_error (g_groups r) g with
      | Some s, Some (a, b, hs) =>
        if Z.leb a id && Z.leb id b then bind r id (g_global r ++ hs ++ s) else (r, true)
      | _, _ => (r, false)
      end
    end.

  Fixpoint reg_run (r : reg) (os : list (rop A)) : reg * list bool :=
    match os with
    | [] => (r, [])
    | o :: os' =>
      let '(r1, b) := reg_step r o in
      let '(r2, bs) := reg_run r1 os' in (r2, b :: bs)
    end.
End Spec.
Arguments reg : clear implicits.
