"""Translate the unit tests of the repository into checks of the model.

Usage: python3 gen_tests.py <repo> > theories/Conformance.v
The tests are read as text; every assertion must be of a known form.
"""
import ast, glob, os, sys

repo = sys.argv[1]

def q(s):
    return '"' + s.replace('"', '""') + '"'

class Sym:
    def __init__(self, t): self.t = t

def ev(e, env):
    """Evaluate an expression of a test to a Python value or a Coq term."""
    if isinstance(e, ast.Constant): return e.value
    if isinstance(e, ast.List): return [ev(x, env) for x in e.elts]
    if isinstance(e, ast.Name): return env[e.id]
    if isinstance(e, ast.Subscript): return ("nth", ev(e.value, env), ev(e.slice, env))
    if isinstance(e, ast.Attribute):
        return ("attr", ev(e.value, env) if not (isinstance(e.value, ast.Name) and e.value.id not in env) else ("mod",), e.attr)
    if isinstance(e, ast.Call):
        a = [ev(x, env) for x in e.args]
        kw = {k.arg: ev(k.value, env) for k in e.keywords}
        if isinstance(e.func, ast.Name):
            f = e.func.id
            if f in ("Operand", "FileName", "ArgStringType"): return a[0]
            if f == "Flag": return ("flag", a[0])
            if f == "make_arg_simple": return ("flag", a[0][0]) if len(a[0]) == 1 else ("option", a[0][0], a[0][1])
            if f == "CommandInvocationInitial":
                return ("inv", a[0], kw.get("flag_option_list", a[1] if len(a) > 1 else None),
                        kw.get("operand_list", a[2] if len(a) > 2 else None))
            if f == "CommandInvocationPrefix": return ("prefix",)
            if f == "parse": return ("parse", a[0])
            if f == "len": return ("len", a[0])
            if f == "make_stdout_with_access_output": return "stdout"
            if f == "make_stdin_with_access_stream_input": return "stdin"
            if f == "make_splitter_consec_chunks": return Sym("CONSEC_CHUNKS")
            if f == "make_splitter_round_robin": return Sym("ROUND_ROBIN_PLAIN")
            if f == "make_mapper_spec_seq": return ("mapper_seq",)
            if f == "make_aggregator_spec_concatenate": return Sym("make_aggregator_spec_concatenate")
            if f == "make_aggregator_spec_adj_lines_merge": return Sym("make_aggregator_spec_adj_lines_merge")
            if f == "make_aggregator_spec_adj_lines_seq": return Sym("make_aggregator_spec_adj_lines_seq")
            if f == "make_aggregator_spec_adj_lines_func_from_string_representation":
                impl = kw.get("is_implemented", a[1] if len(a) > 1 else None)
                return Sym("(make_aggregator_spec_from_string ADJ_LINES_FUNC %s %s)" % (q(a[0]), str(impl).lower()))
            if f == "make_aggregator_spec_custom_2_ary_from_cmd_inv_with_transformers":
                return Sym("(make_aggregator_spec_from_transformers CUSTOM_2_ARY (Some %s) %s)"
                           % (kw["flag_option_list_transformer"].t, str(kw["is_implemented"]).lower()))
            if f == "TransformerFlagOptionListFilter": return Sym("(TFilter [%s])" % "; ".join(map(q, a[0])))
            if f == "TransformerFlagOptionListAdd": return Sym("(TAdd [%s])" % "; ".join("FFlag " + q(x[1]) for x in a[0]))
            if f == "ChainTransformerFlagOptionList": return Sym("(TChain [%s])" % "; ".join(x.t for x in a[0]))
            raise Exception("call " + f)
        fn = ev(e.func, env)
        assert fn[0] == "attr", fn
        m = fn[2]
        if m == "get_input_output_info_from_cmd_invocation": return ("io", a[0])
        if m == "get_parallelizability_info_from_cmd_invocation": return ("para", a[0])
        if m == "apply_input_output_info_to_command_invocation": return ("applied", a[0])
        return ("method", fn[1], m)
    raise Exception(ast.dump(e))

def fo(x):
    return "Flag " + q(x[1]) if x[0] == "flag" else "Option_ %s %s" % (q(x[1]), q(x[2]))

def inv(x):
    return "(mkInv %s [%s] [%s])" % (q(x[1]), "; ".join(map(fo, x[2])), "; ".join(map(q, x[3])))

def statement(c, env):
    """The Coq form of one assertion."""
    if isinstance(c, ast.BoolOp): return " /\\ ".join(statement(x, env) for x in c.values)
    l, r, op = ev(c.left, env), ev(c.comparators[0], env), c.ops[0]
    if isinstance(op, (ast.Is, ast.IsNot)):
        assert r is None
        neg = isinstance(op, ast.IsNot)
        if l[0] == "io": return "%s (tested_io_info inv) = %s" % ("is_some", "true" if neg else "false")
        if l[0] == "para": return "is_some (tested_para_info inv) = %s" % ("true" if neg else "false")
        if l[0] == "attr" and l[1][0] == "applied" and not neg:
            return "option_map %s (tested_io inv) = Some None" % \
                {"implicit_use_of_streaming_input": "io_implicit_input", "implicit_use_of_streaming_output": "io_implicit_output"}[l[2]]
    if isinstance(op, ast.Eq):
        if isinstance(r, tuple) and r[0] == "parse":
            return "parse shipped_dir %s = Ok %s" % (q(r[1]), inv(l))
        if l[0] == "len" and l[1][0] == "method" and l[1][1][0] == "applied":
            return "option_map (fun c => List.length (%s c)) (tested_io inv) = Some %d" % (l[1][2], r)
        if l[0] == "len" and l[1][0] == "attr" and l[1][2] == "parallelizer_list":
            return "option_map (fun i => List.length (parallelizer_list i)) (tested_para_info inv) = Some %d" % r
        if l[0] == "attr" and l[1][0] == "applied":
            a = {"implicit_use_of_streaming_input": "io_implicit_input", "implicit_use_of_streaming_output": "io_implicit_output"}[l[2]]
            res = {"stdin": "(mkRes (StdDescriptor STDIN) STREAM_INPUT)", "stdout": "(mkRes (StdDescriptor STDOUT) STREAM_OUTPUT)"}[r]
            return "option_map %s (tested_io inv) = Some (Some %s)" % (a, res)
        if l[0] == "method" and l[1][0] == "nth":
            n = l[1][2]
            f = {"get_splitter": "p_splitter", "get_mapper_spec": "p_mapper", "get_aggregator_spec": "p_aggregator"}[l[2]]
            lhs = "option_map %s (tested_parallelizer inv %d)" % (f, n)
            if isinstance(r, tuple) and r[0] == "mapper_seq":
                return "(exists m, make_mapper_spec_seq = Ok m /\\ %s = Some m)" % lhs
            return "%s = Some %s" % (lhs, r.t)
    raise Exception(ast.dump(c))

print("""(** * The unit tests of the repository, as checks of the model
    GENERATED by tools/gen_tests.py from pash_annotations/parser/tests and
    pash_annotations/annotation_generation/tests; do not edit.
    These are tests of the model, not theorems: they check on the examples of the authors of the
    code that the model does what the code does. *)
Require Import Verif.PyBase Verif.JsonData Verif.ShippedData Verif.Parser Verif.Access Verif.IOInfo Verif.IOGen Verif.IOVars
  Verif.Transformers Verif.ParaTypes Verif.ParaGen.

Definition is_some {A} (x : option A) : bool := match x with Some _ => true | None => false end.
Definition tested_io_info (inv : invocation) : option io_info := get_input_output_info shipped_dir inv.
Definition tested_io (inv : invocation) : option invocation_io :=
  match tested_io_info inv with Some i => except_none (apply_io_info i inv) | None => None end.
Definition tested_para_info (inv : invocation) : option para_info := get_parallelizability_info shipped_dir inv.
Definition tested_parallelizer (inv : invocation) (n : nat) : option parallelizer :=
  match tested_para_info inv with Some i => nth_error (parallelizer_list i) n | None => None end.
""")
for pat in ("pash_annotations/parser/tests/test_*.py", "pash_annotations/annotation_generation/tests/test_*.py"):
    for f in sorted(glob.glob(os.path.join(repo, pat))):
        mod = ast.parse(open(f).read())
        glob_env = {}
        base = os.path.basename(f)[5:-3]
        for st in mod.body:
            if isinstance(st, ast.Assign): glob_env[st.targets[0].id] = ev(st.value, glob_env)
            if not isinstance(st, ast.FunctionDef): continue
            env = dict(glob_env)
            out, iv = [], None
            for s in st.body:
                if isinstance(s, ast.Assign): env[s.targets[0].id] = ev(s.value, env)
                elif isinstance(s, ast.AnnAssign): env[s.target.id] = ev(s.value, env)
                elif isinstance(s, ast.Assert): out.append(statement(s.test, env))
                else: raise Exception(ast.dump(s))
            if "cmd_inv" in env: iv = env["cmd_inv"]
            print("(** %s, %s *)" % (os.path.relpath(f, repo), st.name))
            body = " /\\\n  ".join(out)
            if iv: body = "let inv := %s in\n  %s" % (inv(iv), body)
            print("Example %s_%s :\n  %s." % (base, st.name, body))
            print("Proof. vm_compute. repeat split; eexists; split; reflexivity. Qed.\n")
