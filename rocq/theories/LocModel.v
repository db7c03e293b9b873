(** Model of crates/rudy-dwarf/src/expressions.rs: the address of a variable from its DWARF location.

    The expression stack machine is gimli's (gimli::read::Evaluation); the operations below are modelled after it, for
    8-byte addresses. Every other operation is [OOther]: it makes gimli ask for something the code does not supply
    (todo!), or is outside this model. *)
From Coq Require Import Ascii String List ZArith Lia Bool.
From Verif Require Import Base.
Import ListNotations.
Open Scope Z_scope.

Inductive dop :=
| OFbreg (off : Z) | OBreg (reg off : Z) | OAddr (a : Z) | OReg (reg : Z) | OCallFrameCfa | OPlusUconst (n : Z)
| OLit (n : Z) | OStackValue | OPiece (n : Z) | OOther.
Inductive location := LocAddress (a : Z) | LocRegister (r : Z) | LocValue (v : Z) | LocEmpty.
(** gimli::EvaluationResult: what the evaluator asks its caller for. *)
Inductive query := QFrameBase | QRegister (r : Z) | QRelocate (a : Z) | QCfa | QOther.
Definition wrap (z : Z) : Z := z mod two64.

(** gimli: Evaluation::evaluate with its resume functions; [ask] is the caller's answer to a query. *)
Fixpoint run (ask : query -> res Z) (ops : list dop) (stack : list Z) (pieces : list location) : res (list location) :=
  match ops with
  | [] => match pieces with
          | [] => match stack with a :: _ => Ok [LocAddress (wrap a)] | [] => Err "NotEnoughStackItems" end
          | _ => Ok (rev pieces)
          end
  | o :: ops' =>
      let complete l :=
        match ops' with
        | [] => match pieces with [] => Ok [l] | _ => Err "InvalidPiece" end
        | OPiece _ :: ops'' => run ask ops'' stack (l :: pieces)
        | _ => Err "InvalidExpressionTerminator"
        end in
      match o with
      | OFbreg off => b <- ask QFrameBase ;; run ask ops' (wrap (b + off) :: stack) pieces
      | OBreg r off => b <- ask (QRegister r) ;; run ask ops' (wrap (b + off) :: stack) pieces
      | OAddr a => b <- ask (QRelocate a) ;; run ask ops' (wrap b :: stack) pieces
      | OCallFrameCfa => b <- ask QCfa ;; run ask ops' (wrap b :: stack) pieces
      | OLit n => run ask ops' (wrap n :: stack) pieces
      | OPlusUconst n => match stack with a :: s => run ask ops' (wrap (a + n) :: s) pieces | [] => Err "NotEnoughStackItems" end
      | OReg r => complete (LocRegister r)
      | OStackValue => match stack with a :: _ => complete (LocValue a) | [] => Err "NotEnoughStackItems" end
      | OPiece _ => match stack with a :: s => run ask ops' s (LocAddress (wrap a) :: pieces) | [] => run ask ops' [] (LocEmpty :: pieces) end
      | OOther => b <- ask QOther ;; run ask ops' (wrap b :: stack) pieces
      end
  end.

(** expressions.rs 33-36: ExpressionContext. *)
Record regs := Regs { get_register : Z -> res Z; get_stack_pointer : res Z }.

(** expressions.rs 39-89: get_function_frame_base; [None]: no (readable) DW_AT_frame_base. *)
Definition frame_base (c : regs) (expr : option (list dop)) : res Z :=
  match expr with
  | None => Err "Failed to get location expression for function"
  | Some ops =>
      l <- run (fun q => match q with QCfa => get_stack_pointer c | _ => Panic "handle incomplete evaluation" end) ops [] [] ;;
      match l with
      | [LocAddress a] => Ok a
      | [LocRegister r] => get_register c r
      | [_] => Err "Unexpected location type for frame base"
      | _ => Panic "assertion failed"
      end
  end.

(** expressions.rs 92-155: resolve_data_location; [None]: no expression in DW_AT_location (absent, or a location list). *)
Definition resolve_data_location (c : regs) (fb : option (list dop)) (base_address : Z) (expr : option (list dop)) : res (option Z) :=
  match expr with
  | None => Ok None
  | Some ops =>
      l <- run (fun q => match q with
                         | QFrameBase => frame_base c fb
                         | QRegister r => get_register c r
                         | QRelocate a => add64 base_address a
                         | _ => Panic "handle incomplete evaluation"
                         end) ops [] [] ;;
      match l with
      | [LocAddress a] => Ok (Some a)
      | [_] => Panic "handle location"
      | _ => Panic "support multiple pieces"
      end
  end.
