(** The filter! macro and the field expressions it expands to.
    Models butane_codegen/src/filter.rs and butane_core/src/query/fieldexpr.rs. *)
From Verif Require Import Base SqlVal Query.

(** * Input *)

(** filter.rs:44-54: the operators told apart; every other operator is [OOther]. *)
Inductive rop := OEq | ONe | OLt | OGt | OLe | OGe | OAnd | OOr | OOther.
(** filter.rs:66-72 *)
Inductive rmethod := MMatches | MContains | MLike | MIsIn | MOther.

(** filter.rs:11-30: the syntax of a filter expression ([syn::Expr]).
    [RLit v]: a literal, as the value its [to_sql] gives.
    [RBlock v], [RBlockCond c], [RVec vs]: code in braces, or the argument of
    is_in, which the macro copies unread; they stand for what that code
    evaluates to (a value, a [BoolExpr], a vector of values).
    [RGroup]: the invisible group around a macro fragment.
    [RUnsupported]: every other form (parentheses, [!], function calls, ...). *)
Inductive rexpr :=
| RPath (id : string)
| RLit (v : SqlVal)
| RBlock (v : SqlVal)
| RBlockCond (c : BoolExpr)
| RVec (vs : list SqlVal)
| RBin (op : rop) (l r : rexpr)
| RCall (recv : rexpr) (m : rmethod) (args : list rexpr)
| RGroup (e : rexpr)
| RUnsupported.

(** * Models *)

(** What the type of a field is to a filter: a column, a ForeignKey to a model,
    or a Many with its link table and item model. *)
Inductive fkind := Plain | Fk (target : string) | ManyOf (many_table target : string).
(** DataObject::TABLE, ::PKCOL and the generated [fields()]. *)
Record model := { m_table : string; m_pk : string; m_fields : list (string * fkind) }.
Definition kind_of (m : model) (c : string) : option fkind :=
  option_map snd (find (fun x => String.eqb (fst x) c) (m_fields m)).

(** * Field expressions *)

(** fieldexpr.rs:80-94 *)
Definition subfilter (c : string) (f : model) (e : BoolExpr) : BoolExpr := BSubquery c (m_table f) (m_pk f) e.
Definition subfilterpk (c : string) (f : model) (pk : SqlVal) : BoolExpr :=
  subfilter c f (BEq (m_pk f) (EVal pk)).
(** fieldexpr.rs:122-140; [o] owns the field, [t] is the item model. *)
Definition contains (many_table : string) (o t : model) (e : BoolExpr) : BoolExpr :=
  BSubqueryJoin (m_pk o) (m_table t) {| col_table := Some many_table; col_name := "owner" |}
    [{| join_table := many_table;
        join_col1 := {| col_table := Some many_table; col_name := "has" |};
        join_col2 := {| col_table := Some (m_table t); col_name := m_pk t |} |}] e.
Definition containspk (many_table : string) (o t : model) (pk : SqlVal) : BoolExpr :=
  contains many_table o t (BEq (m_pk t) (EVal pk)).

(** * Translation *)

(** What the generated code evaluates to.  Code that does not type-check and
    input the macro refuses are [None]. *)
Inductive code :=
| CField (c : string) (k : fkind)
| CVal (v : SqlVal)
| CVec (vs : list SqlVal)
| CCond (b : BoolExpr).

Section Translate.
Variable models : string -> option model.

(** filter.rs:127-134: the receiver must be a plain identifier. *)
Definition fieldexpr (m : model) (e : rexpr) : option (string * fkind) :=
  match e with
  | RPath id => option_map (pair id) (kind_of m id)
  | _ => None
  end.

(** fieldexpr.rs:58-63: [eq] and [ne] need PartialEq, the others an ordering. *)
Definition compare_code (op : rop) (l r : code) : option code :=
  match l, r with
  | CField c k, CVal v =>
      match op, k with
      | OEq, (Plain | Fk _) => Some (CCond (BEq c (EVal v)))
      | ONe, (Plain | Fk _) => Some (CCond (BNe c (EVal v)))
      | OLt, Plain => Some (CCond (BLt c (EVal v)))
      | OGt, Plain => Some (CCond (BGt c (EVal v)))
      | OLe, Plain => Some (CCond (BLe c (EVal v)))
      | OGe, Plain => Some (CCond (BGe c (EVal v)))
      | _, _ => None
      end
  | _, _ => None
  end.

(** filter.rs:11-125 *)
Fixpoint handle (m : model) (e : rexpr) : option code :=
  match e with
  | RPath id =>
      if String.eqb id "None" then Some (CVal VNull)
      else option_map (fun ck => CField (fst ck) (snd ck)) (fieldexpr m (RPath id))
  | RLit v => Some (CVal v)
  | RBlock v => Some (CVal v)
  | RBlockCond c => Some (CCond c)
  | RVec vs => Some (CVec vs)
  | RGroup e => handle m e
  | RUnsupported => None
  | RBin op l r =>
      match handle m l, handle m r with
      | Some cl, Some cr =>
          match op, cl, cr with
          | OAnd, CCond a, CCond b => Some (CCond (BAnd a b))
          | OOr, CCond a, CCond b => Some (CCond (BOr a b))
          | _, _, _ => compare_code op cl cr
          end
      | _, _ => None
      end
  | RCall recv meth args =>
      match meth, fieldexpr m recv, args with
      | MMatches, Some (c, Fk t), [a] =>
          match models t with
          | None => None
          | Some f =>
              match a with
              | RLit v => Some (CCond (subfilterpk c f v))
              | _ => match handle f a with
                     | Some (CCond q) => Some (CCond (subfilter c f q))
                     | _ => None
                     end
              end
          end
      | MContains, Some (c, ManyOf mt t), [a] =>
          match models t with
          | None => None
          | Some f =>
              match a with
              | RLit v => Some (CCond (containspk mt m f v))
              | _ => match handle f a with
                     | Some (CCond q) => Some (CCond (contains mt m f q))
                     | _ => None
                     end
              end
          end
      | MLike, Some (c, Plain), a :: _ =>
          match a with
          | RBin _ _ _ => None
          | _ => match handle m a with
                 | Some (CVal v) => Some (CCond (BLike c (EVal v)))
                 | _ => None
                 end
          end
      | MIsIn, Some (c, Plain), a :: _ =>
          match a with
          | RVec vs => Some (CCond (BIn c vs))
          | _ => None
          end
      | _, _, _ => None
      end
  end.
End Translate.
