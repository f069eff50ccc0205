#!/usr/bin/env python3
"""Transcribes the uniform visit_* methods of the operator validator into Coq, and the dispatch with its
feature gates.  Reads /repo, writes rocq/theories/Validator/Visit.v.  A method is transcribed when every statement
of its body has one of the shapes below; the others must be defined in Checks.v under the same name."""
import os,re,sys
root=os.path.dirname(os.path.dirname(os.path.abspath(__file__)))
base="/repo/crates/wasmparser/src/"
PT={"u32":"Z","i32":"Z","i64":"Z","u8":"Z","$crate::Ieee32":"Z","$crate::Ieee64":"Z","$crate::V128":"list Z","[u8; 16]":"list Z",
    "$crate::BlockType":"p_block","$crate::MemArg":"p_memarg","$crate::BrTable<'a>":"p_br_table","$crate::HeapType":"heap_type",
    "$crate::RefType":"Z","$crate::ValType":"p_val","Vec<$crate::ValType>":"list p_val","$crate::Ordering":"ordering",
    "$crate::TryTable":"p_try_table","$crate::ResumeTable":"list handle"}
# the table of operators with their proposals
lib=open(base+"lib.rs").read()
i0=lib.index("macro_rules! _for_each_operator_group"); i1=lib.index("\n}\n",i0)
groups=[]
for m in re.finditer(r"^ {12}@(\w+) \{$",lib[i0:i1],re.M): groups.append((m.start(),m.group(1)))
ops=[]
for m in re.finditer(r"^ {16}(\w+)\s*(?:\{\s*(.*?)\s*\}\s*)?=> (visit_\w+) +\(",lib[i0:i1],re.M|re.S):
    args=[]
    if m.group(2):
        for a in re.sub(r"\s+"," ",m.group(2)).strip().rstrip(",").split(", "):
            n,ty=a.split(":",1); args.append((n.strip(),PT[ty.strip()]))
    g=[g for p,g in groups if p<m.start()][-1]
    ops.append((m.group(1),args,m.group(3),g))
assert lib[i0:i1].count("=> visit_")==len(ops)
# descriptions
src=open(base+"validator/operators.rs").read()
desc=dict(re.findall(r'\(desc (\w+)\) => \("([^"]*)"\);',src))
simd=open(base+"validator/operators/simd.rs").read()
fns={}
for fn,s in (("operators.rs",src),("operators/simd.rs",simd)):
    for m in re.finditer(r"^    fn (visit_\w+)\(\s*&mut self,?\s*([^)]*?)\)\s*->\s*(?:Self::Output|Result<\(\)>)\s*\{\n(.*?)^    \}\n",s,re.M|re.S):
        if "$" in m.group(0): continue
        l0=s.count("\n",0,m.start())+1; l1=s.count("\n",0,m.end())
        ps=[p.split(":")[0].strip().replace("mut ","") for p in m.group(2).split(",") if p.strip()]
        assert m.group(1) not in fns
        fns[m.group(1)]=(ps,m.group(3),"%s:%d-%d"%(fn,l0,l1))
hand=set(re.findall(r"^Definition (visit_\w+)",open(root+"/rocq/theories/Validator/Checks.v").read(),re.M))
VT={"ValType::I32":"VI32","ValType::I64":"VI64","ValType::F32":"VF32","ValType::F64":"VF64","ValType::V128":"VV128"}
def expr(e):
    e=e.strip()
    if e in VT: return VT[e]
    if re.fullmatch(r"\d+",e) or e in("true","false"): return e
    if re.fullmatch(r'"\w+"',e): return e+"%string"
    m=re.fullmatch(r"AbstractHeapType::(\w+)",e)
    if m: return m.group(1)
    if re.fullmatch(r"\w+",e): return "a_"+e.lstrip("_")
    raise ValueError(e)
NOENV={"push_operand","unreachable"}
def call(f,args):
    a=[expr(x) for x in args.split(",") if x.strip()]
    if f=="pop_operand": raise ValueError
    return " ".join([f]+([] if f in NOENV or f in done else ["E"])+a)
def translate(body):
    """list of (binder|None, term); the last item is the result"""
    body=re.sub(r"//[^\n]*","",body)
    toks=[x.strip() for x in re.split(r";\s*\n",body.rstrip()+"\n")]
    toks=[re.sub(r"\s+"," ",t) for t in toks if t]
    out=[]
    for i,t in enumerate(toks):
        last=i==len(toks)-1
        if t=="Ok(())": assert last; out.append((None,"vret tt","unit")); continue
        m=re.fullmatch(r"self\.pop_operand\(Some\(([^()]*)\)\)\?",t)
        if m: out.append((None,"pop E "+expr(m.group(1)),"unit")); continue
        m=re.fullmatch(r"self\.pop_operand\(None\)\?",t)
        if m: out.append((None,"pop_operand E None","maybe")); continue
        m=re.fullmatch(r"let (\w+) = self\.(\w+)\(([^()]*)\)\?",t)
        if m: out.append(("a_"+m.group(1),call(m.group(2),m.group(3)),"x")); continue
        m=re.fullmatch(r"self\.(\w+)\(([^()]*)\)(\??)",t)
        if m:
            if not m.group(3): assert last
            out.append((None,call(m.group(1),m.group(2)),"x" if m.group(3) else "unit")); continue
        raise ValueError(t)
    return out
gen=[];todo=[];done=set()
def emit(v):
    if v in done or v in hand: return
    ps,body,loc=fns[v]
    opargs=[(n,a) for n,a,vv,_ in ops if vv==v][0][1]
    assert len(opargs)==len(ps),v
    for dep in re.findall(r"self\.(visit_\w+)\(",body): emit(dep)
    items=translate(body)
    s=""
    # "m ;; vret tt" after a unit-valued last statement is that statement
    while len(items)>1 and items[-1][1]=="vret tt" and items[-2][0] is None and items[-2][2]=="unit": items.pop()
    k=[]
    if len(items)>1 and items[-1][1]=="vret tt" and items[-2][0] is None and re.match(r"(push_operand|check_\w*(op|load|store|memory_op|cmpxchg|call_ty|return|return_call_ty|data_segment))\b",items[-2][1]): items.pop()
    for b,t,_ in items[:-1]:
        s+="let! %s := %s in "%(b,t) if b else "%s ;; "%t
    s+=items[-1][1]
    args=" ".join("(a_%s : %s)"%(p.lstrip("_"),ty) for p,(_,ty) in zip(ps,opargs))
    gen.append("(* %s *) Definition %s%s : V unit := %s."%(loc,v,(" "+args) if args else "",s))
    done.add(v)
for n,args,v,g in ops:
    try: emit(v)
    except (ValueError,AssertionError) as e: todo.append((v,str(e)))
for v,e in todo: print("no shape:",v,e)
if todo: sys.exit(1)
extra=hand-{v for _,_,v,_ in ops}-{"visit_block_kind"}
assert not extra,extra
out=["(** GENERATED by tools/gen_valid.py from crates/wasmparser/src/validator/operators.rs, operators/simd.rs and lib.rs:",
"    %d uniform [visit_*] methods, the feature gates of [WasmProposalValidator] (operators.rs:1993-2082) and the dispatch.  *)"%len(gen),
"From Verif.Base Require Import Prelude.","From Verif.Types Require Import RefModel CodecModel CanonModel.",
"From Verif.Instr Require Import ImmModel Ops.","From Verif.Validator Require Import State Checks.","",
"Section Env.","Variable E : env."]+gen
out+=["","(** The operator itself ([OperatorValidatorTemp]). *)","Definition visit_op (o : operator) : V unit :=","  match o with"]
for n,args,v,g in ops:
    xs=" ".join("x%d"%i for i in range(len(args)))
    noE={"visit_unreachable"}
    out.append("  | Op_%s%s => %s%s%s"%(n,(" "+xs) if xs else "",v,"" if v in noE or v in done else " E",(" "+xs) if xs else ""))
out+=["  end.","","(** [validate_proposal!]: the feature an operator belongs to; [MemoryFill] and [MemoryCopy] are gated in their methods. *)",
"Definition gate (o : operator) : option (feature * string) :=","  match o with"]
feats={}
for n,args,v,g in ops:
    if g=="mvp" or n in("MemoryFill","MemoryCopy"): continue
    feats.setdefault(g,[]).append((n,len(args)))
for g,l in feats.items():
    out.append("  | "+"\n  | ".join(" | ".join("Op_%s%s"%(n," _"*k) for n,k in l[i:i+6]) for i in range(0,len(l),6)))
    out.append('    => Some (f_%s, "%s support is not enabled"%%string)'%(g,desc[g]))
out+=["  | _ => None","  end.",
"Definition visit (o : operator) : V unit :=",
"  match gate o with Some (f, msg) => require E f msg | None => vret tt end ;; visit_op o.","End Env.",""]
open(root+"/rocq/theories/Validator/Visit.v","w").write("\n".join(out))
print(len(gen),"transcribed",len(hand),"by hand",len(ops))
