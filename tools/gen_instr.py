#!/usr/bin/env python3
"""Transcribes the instruction tables of wasmparser and wasm-encoder into Coq.
Reads /repo, writes rocq/theories/Instr/{Ops,Sink,Visit,Convert,Imms,Den}.v.  Any source shape it
does not know is an error: nothing is skipped."""
import os,re,sys
repo="/repo/crates/"
root=os.path.dirname(os.path.dirname(os.path.abspath(__file__)))
dst=root+"/rocq/theories/Instr/"
def read(p): return open(repo+p).read()
def line(s,i): return s.count("\n",0,i)+1

# ---- wasmparser operators -------------------------------------------------
lib=read("wasmparser/src/lib.rs")
i0=lib.index("macro_rules! _for_each_operator_group"); i1=lib.index("\n}\n",i0)
PT={"u32":"Z","i32":"Z","i64":"Z","u8":"Z","$crate::Ieee32":"Z","$crate::Ieee64":"Z","$crate::V128":"list Z","[u8; 16]":"list Z",
    "$crate::BlockType":"p_block","$crate::MemArg":"p_memarg","$crate::BrTable<'a>":"p_br_table","$crate::HeapType":"heap_type",
    "$crate::RefType":"Z","$crate::ValType":"p_val","Vec<$crate::ValType>":"list p_val","$crate::Ordering":"ordering",
    "$crate::TryTable":"p_try_table","$crate::ResumeTable":"list handle"}
ops=[]  # (name, [(arg,ty)], visit, line)
for m in re.finditer(r"^ {16}(\w+)\s*(?:\{\s*(.*?)\s*\}\s*)?=> visit_(\w+) +\(arity",lib[i0:i1],re.M|re.S):
    args=[]
    if m.group(2):
        t=re.sub(r"\s+"," ",m.group(2)).strip().rstrip(",")
        for a in t.split(", "):
            n,ty=a.split(":",1); args.append((n.strip(),ty.strip()))
            assert ty.strip() in PT,(a,)
    ops.append((m.group(1),args,m.group(3),line(lib,i0+m.start())))
assert lib[i0:i1].count("=> visit_")==len(ops),(len(ops),lib[i0:i1].count("=> visit_"))
op_by_visit={v:(n,a) for n,a,v,_ in ops}
op_by_name={n:(a,v,l) for n,a,v,l in ops}

# ---- wasm-encoder instructions ---------------------------------------------
code=read("wasm-encoder/src/core/code.rs")
i0=code.index("pub enum Instruction<'a> {"); i1=code.index("\n}\n",i0)
ET={"u32":"Z","i32":"Z","i64":"Z","Lane":"Z","Ieee32":"Z","Ieee64":"Z","i128":"Z","[Lane; 16]":"list Z","BlockType":"e_block",
    "MemArg":"e_memarg","HeapType":"e_heap","RefType":"e_ref","ValType":"e_val","Cow<'a, [ValType]>":"list e_val","Ordering":"ordering",
    "Cow<'a, [u32]>":"list Z","Cow<'a, [Catch]>":"list catch","Cow<'a, [Handle]>":"list handle"}
def split_args(t):
    out=[];d=0;cur=""
    for c in t:
        if c in "<[(": d+=1
        if c in ">])": d-=1
        if c=="," and d==0: out.append(cur.strip()); cur=""
        else: cur+=c
    if cur.strip(): out.append(cur.strip())
    return out
ins=[]  # (name, named?, [(arg,ty)], line)
body=re.sub(r"//[^\n]*",lambda m:" "*len(m.group(0)),code[i0:i1])
body=re.sub(r"#\[[^\]]*\]",lambda m:" "*len(m.group(0)),body)
p=body.index("{")+1
pat=re.compile(r"\s*(\w+)\s*(\(|\{|,)")
while body[p:].strip():
    m=pat.match(body,p); assert m,body[p:p+80]
    nm=m.group(1); ln=line(code,i0+m.start(1))
    if m.group(2)==",": ins.append((nm,False,[],ln)); p=m.end(); continue
    op,cl=m.group(2),{"(":")","{":"}"}[m.group(2)]
    q=m.end();d=1
    while d:
        if body[q]==op:d+=1
        if body[q]==cl:d-=1
        q+=1
    inner=re.sub(r"\s+"," ",body[m.end():q-1])
    if op=="{":
        args=[tuple(x.strip() for x in a.split(":",1)) for a in split_args(inner)]; ins.append((nm,True,args,ln))
    else:
        args=[("a%d"%k,a) for k,a in enumerate(split_args(inner))]; ins.append((nm,False,args,ln))
    for _,t in args: assert t in ET,t
    p=q
    m=re.compile(r"\s*,").match(body,p); assert m; p=m.end()
ins_by={n:(named,a,l) for n,named,a,l in ins}
assert set(ins_by)==set(op_by_name),set(ins_by)^set(op_by_name)

# ---- InstructionSink methods -------------------------------------------------
snk=read("wasm-encoder/src/core/instructions.rs")
sinks={}
ST=dict(ET); ST.update({"V":None,"&[ValType]":"list e_val","[Lane; 16]":"list Z","f32":"Z"})
for m in re.finditer(r"^    pub fn (\w+)(<V: IntoIterator<Item = (\w+)>>)?\(\s*&mut self,?\s*([^)]*?),?\s*\) -> &mut Self\s*(?:where\s*V::IntoIter: ExactSizeIterator,\s*)?\{(.*?)^    \}",snk,re.M|re.S):
    nm,gen,item,params,bd=m.group(1),m.group(2),m.group(3),m.group(4),m.group(5)
    ps=[]
    for a in split_args(re.sub(r"\s+"," ",params)):
        n,t=[x.strip() for x in a.split(":",1)]
        if t=="V": ct={"u32":"list Z","Catch":"list catch","Handle":"list handle"}[item]
        elif t.startswith("impl Into<"): raise Exception(t)
        else:
            assert t in ST,(nm,t); ct=ST[t]
        ps.append((n,ct,t if t!="V" else "V"+item))
    outs=[]; l0=line(snk,m.start()); lets={}
    stm=[x.strip() for x in re.sub(r"\s+"," ",re.sub(r"//[^\n]*","",bd)).split(";")]
    assert stm[-1]=="self",(nm,stm)
    ty={n:t for n,_,t in ps}
    E={"u32":"encode_u32 %s","i32":"encode_s32 %s","i64":"encode_s64 %s","BlockType":"enc_block %s","MemArg":"enc_memarg %s","HeapType":"enc_heap %s",
       "RefType":"enc_ref %s","ValType":"enc_val %s","&[ValType]":"o_vec enc_val %s","Ordering":"enc_ordering %s",
       "Vu32":"o_vec encode_u32 %s","VCatch":"o_vec enc_catch %s","VHandle":"o_vec enc_handle %s"}
    for s in stm[:-1]:
        r=re.fullmatch(r"self\.sink\.push\((0x[0-9A-Fa-f]+)\)",s)
        if r: outs.append("o_byte "+r.group(1).lower()); continue
        r=re.fullmatch(r"(0x[0-9A-Fa-f]+|[0-9]+)u32\.encode\(self\.sink\)",s)
        if r: outs.append("encode_u32 "+r.group(1).lower()); continue
        r=re.fullmatch(r"(\w+)\.encode\(self\.sink\)",s)
        if r and ty.get(r.group(1)) in E and not ty[r.group(1)].startswith("V") : outs.append(E[ty[r.group(1)]]%r.group(1)); continue
        if r and ty.get(r.group(1))=="ValType": outs.append(E["ValType"]%r.group(1)); continue
        if r and ty.get(r.group(1)) in("Ieee32","Ieee64"): outs.append("o_le %d %s"%({"Ieee32":4,"Ieee64":8}[ty[r.group(1)]],r.group(1))); continue
        r=re.fullmatch(r"encode_vec\((\w+), self\.sink\)",s)
        if r and ty[r.group(1)].startswith("V"): outs.append(E[ty[r.group(1)]]%r.group(1)); continue
        r=re.fullmatch(r"\[(\w+)\]\.encode\(self\.sink\)",s)
        if r: assert ty[r.group(1)]=="ValType"; outs.append("o_vec enc_val [%s]"%r.group(1)); continue
        r=re.fullmatch(r"self\.sink\.push\((\w+)\)",s)
        if r and ty.get(r.group(1))=="Lane": outs.append("o_byte "+r.group(1)); continue
        if r and r.group(1) in lets: outs.append("o_byte (%s)"%lets[r.group(1)]); continue
        r=re.fullmatch(r"(\w+)\.heap_type\.encode\(self\.sink\)",s)
        if r: assert ty[r.group(1)]=="RefType"; outs.append("enc_heap (er_heap %s)"%r.group(1)); continue
        r=re.fullmatch(r"self\.sink\.extend\((\w+)\.iter\(\)\.copied\(\)\)",s)
        if r: assert ty[r.group(1)]=="[Lane; 16]"; outs.append("o_raw "+r.group(1)); continue
        r=re.fullmatch(r"let x = x\.bits\(\)",s)
        if r: continue
        r=re.fullmatch(r"self\.sink\.extend\((\w+)\.to_le_bytes\(\)\.iter\(\)\.copied\(\)\)",s)
        if r: outs.append("o_le %d %s"%({"Ieee32":4,"Ieee64":8,"i128":16}[ty[r.group(1)]],r.group(1))); continue
        r=re.fullmatch(r"let cast_flags = \(from_ref_type\.nullable as u8\) \| \(\(to_ref_type\.nullable as u8\) << 1\)",s)
        if r: lets["cast_flags"]="cast_flags from_ref_type to_ref_type"; continue
        raise Exception((nm,s,ty))
    sinks[nm]=(ps,outs,l0)
assert len(sinks)==len(re.findall(r"^    pub fn ",snk,re.M))-1,(len(sinks),len(re.findall(r"^    pub fn ",snk,re.M)))

# ---- Instruction::encode -------------------------------------------------------
i0=code.index("impl Encode for Instruction<'_> {"); i1=code.index("\n}\n",i0)
encs={}
t=re.sub(r"//[^\n]*",lambda m:" "*len(m.group(0)),code[i0:i1])
for m in re.finditer(r"Instruction::(\w+)\s*(\([^)]*\)|\{[^}]*\})?\s*=>\s*(?:\{\s*)?sink\.(\w+)\(((?:[^()]|\([^()]*\))*)\)\s*(?:\}|,)",t):
    nm,pt,fn,args=m.groups()
    binds=[]
    if pt:
        for x in split_args(re.sub(r"\s+"," ",pt[1:-1])):
            x=x.replace("ref ","").strip()
            binds.append(x)
    av=[]
    for x in split_args(re.sub(r"\s+"," ",args)):
        x=re.sub(r"\.iter\(\)\.(copied|cloned)\(\)|\.as_ref\(\)$","",x)
        av.append(x)
    encs[nm]=(binds,fn,av,line(code,i0+m.start()),bool(pt and pt[0]=="{"))
assert set(encs)==set(ins_by),set(encs)^set(ins_by)

# ---- visit_operator -------------------------------------------------------------
br=read("wasmparser/src/binary_reader.rs")
RD={"self.read_block_type()?":"read_block","self.read_var_u32()?":"read_var_u32","self.read_br_table()?":"read_br_table","self.read_var_i32()?":"read_var_i32",
    "self.read_var_i64()?":"read_var_i64","self.read_f32()?":"read_u32","self.read_f64()?":"read_u64","self.read_lane_index()?":"read_lane","self.read_v128()?":"read_v128",
    "self.read_ordering()?":"read_ordering","self.read_call_indirect_table_immediate()?":"read_call_table","self.read_memory_index_or_zero_if_not_multi_memory()?":"read_memory_index"}
BYTY={"u32":"read_var_u32","$crate::HeapType":"read_heap","$crate::ValType":"read_val","$crate::TryTable":"read_try_table","$crate::ResumeTable":"read_resume_table"}
maxal={}
def reader_of(e,ty):
    e=e.strip()
    if e in RD: return RD[e]
    m=re.fullmatch(r"self\.read_memarg\((\d)\)\?",e)
    if m: return "read_memarg "+m.group(1)
    if e=="self.read()?": return BYTY[ty]
    raise Exception((e,ty))
LEG='#[cfg(feature = "features")] require_feature::legacy_exceptions( self.features, "legacy_exceptions feature required for %s instruction", pos, )?;'
EITHER='match self.expect_frame(visitor, FrameKind::LegacyCatch, "%s") { Ok(()) => (), Err(_) => self.expect_frame(visitor, FrameKind::LegacyTry, "%s")?, }'
def castbody(v,bits):
    f=["0b00","0b01","0b10","0b11"] if bits else ["0","1","2","3"]
    return ('let pos = self.original_position(); let cast_flags = self.read_u8()?; let relative_depth = self.read_var_u32()?; '
     'let (from_type_nullable, to_type_nullable) = match cast_flags { %s => (false, false), %s => (true, false), %s => (false, true), %s => (true, true), _ => bail!(pos, "invalid cast flags: {cast_flags:08b}"), }; '
     'let from_heap_type = self.read()?; let from_ref_type = RefType::new(from_type_nullable, from_heap_type).ok_or_else(|| { format_err!(pos, "implementation error: type index too large") })?; '
     'let to_heap_type = self.read()?; let to_ref_type = RefType::new(to_type_nullable, to_heap_type).ok_or_else(|| { format_err!(pos, "implementation error: type index too large") })?; '
     'visitor.visit_%s(relative_depth, from_ref_type, to_ref_type)')%tuple(f+[v])
prefix_fn={"0xfb":"visit_0xfb_operator","0xfc":"visit_0xfc_operator","0xfd":"visit_0xfd_operator","0xfe":"visit_0xfe_operator"}
def arms(fn):
    i0=re.search(r"fn %s<T>\("%fn,br).start(); i1=br.index("\n    }\n",i0)
    t=br[i0:i1]; out=[]
    k=[(m.start(),m.group(1),m.end()) for m in re.finditer(r"^            (0x[0-9a-f]+|_) => ",t,re.M)]
    for j,(s,c,e) in enumerate(k):
        if c=="_": continue
        a=re.sub(r"\s+"," ",re.sub(r"//[^\n]*","",t[e:k[j+1][0]])).strip()
        out.append((c,a,line(br,i0+s)))
    # every 0x at arm position accounted for
    return out,line(br,i0),line(br,i1)
def arm(c,a):
    if a.startswith("{"): assert a.endswith("}"),a; b=a[1:-1].strip()
    else: b=a.rstrip(",").strip()
    if c in prefix_fn and b==("self.%s(pos, visitor)?"%prefix_fn[c]): return "visit_"+c[2:]+" pos"
    if c=="0xfd" and b.startswith('#[cfg'):
        assert b=='#[cfg(feature = "simd")] if let Some(mut visitor) = visitor.simd_visitor() { return self.visit_0xfd_operator(pos, &mut visitor); } bail!(pos, "unexpected SIMD opcode: 0x{code:x}")',b
        return "visit_fd pos"
    if b=='self.expect_frame(visitor, FrameKind::If, "else")?; visitor.visit_else()': return "let* _ := expect_frame cur FIf in ret Op_Else"
    if b=='self.expect_frame(visitor, FrameKind::LegacyTry, "delegate")?; visitor.visit_delegate(self.read_var_u32()?)':
        return "let* _ := expect_frame cur FLegacyTry in let* relative_depth := read_var_u32 in ret (Op_Delegate relative_depth)"
    if b==LEG%"try"+" visitor.visit_try(self.read_block_type()?)": return "let* _ := require_legacy pos in let* blockty := read_block in ret (Op_Try blockty)"
    if b==LEG%"catch"+" "+EITHER%("catch","catch")+" visitor.visit_catch(self.read_var_u32()?)":
        return "let* _ := require_legacy pos in let* _ := expect_either cur FLegacyCatch FLegacyTry in let* tag_index := read_var_u32 in ret (Op_Catch tag_index)"
    if b==LEG%"catch_all"+" "+EITHER%("catch_all","catch_all")+" visitor.visit_catch_all()":
        return "let* _ := require_legacy pos in let* _ := expect_either cur FLegacyCatch FLegacyTry in ret Op_CatchAll"
    if b=='let result_count = self.read_size(MAX_WASM_SELECT_RESULT_SIZE, "select types")?; if result_count == 1 { visitor.visit_typed_select(self.read()?) } else { let mut results = Vec::new(); results.reserve_exact(result_count); for _ in 0..result_count { results.push(self.read()?); } visitor.visit_typed_select_multi(results) }':
        return ('let* result_count := read_size MAX_WASM_SELECT_RESULT_SIZE "select types" in\n      if result_count =? 1 then let* ty := read_val in ret (Op_TypedSelect ty)\n'
                '      else let* tys := read_n (Z.to_nat result_count) read_val in ret (Op_TypedSelectMulti tys)')
    if b=='let mut lanes: [u8; 16] = [0; 16]; for lane in &mut lanes { *lane = self.read_lane_index()? } visitor.visit_i8x16_shuffle(lanes)':
        return "let* lanes := read_lanes in ret (Op_I8x16Shuffle lanes)"
    if b=='if self.read_u8()? != 0 { bail!(pos, "nonzero byte after `atomic.fence`"); } visitor.visit_atomic_fence()':
        return 'let* b := read_u8 in if b =? 0 then ret Op_AtomicFence else fail_pos "nonzero byte after `atomic.fence`" pos'
    m=re.search(r"visitor\.visit_(\w+)\(relative_depth, from_ref_type, to_ref_type\)$",b)
    if m:
        assert b in (castbody(m.group(1),True),castbody(m.group(1),False)),b
        return "let* c := read_cast in ret (Op_%s (fst (fst c)) (snd (fst c)) (snd c))"%op_by_visit[m.group(1)][0]
    m=re.match(r"^((?:let \w+ = self\.\w+\(\d?\)\?; )*)visitor\.visit_(\w+)\((.*)\)$",b); assert m,(c,b)
    name,ar=op_by_visit[m.group(2)]
    lets={}
    pre=[]
    for x,e in re.findall(r"let (\w+) = (self\.\w+\(\d?\)\?); ",m.group(1)):
        pre.append((x,e)); lets[x]=True
    args=split_args(m.group(3)); assert len(args)==len(ar),(b,ar)
    out=[]; fin=[]
    tyof={x:t for x,(n,t) in zip(args,ar)}
    for x,e in pre:
        r=reader_of(e,tyof[x])
        if r.startswith("read_memarg"): maxal[name]=r.split()[1]
        out.append("let* %s := %s in"%(x,r))
    for x,(n,t) in zip(args,ar):
        if x in lets: fin.append(x)
        else:
            r=reader_of(x,t)
            if r.startswith("read_memarg"): maxal[name]=r.split()[1]
            out.append("let* %s := %s in"%(n,r)); fin.append(n)
    return " ".join(out+["ret "+("(Op_%s %s)"%(name," ".join(fin)) if fin else "Op_"+name)])
HEAD='''(** Generated by tools/gen_instr.py from %s: do not edit. *)
From Verif.Base Require Import Prelude.
From Verif.Reader Require Import Model.
From Verif.Leb Require Import Model.
From Verif.Codec Require Import Kit.
From Verif.Types Require Import RefModel CodecModel EntityModel.
From Verif.Instr Require Import ImmModel%s.
'''
def w(n,s): open(dst+n,"w").write(s)
# Visit.v (first: fills maxal)
o=HEAD%("crates/wasmparser/src/binary_reader.rs"," Ops")
o+="(* Decimal positions of the arms in binary_reader.rs are given on the right. *)\n"
used=set()
for pfx,fn in prefix_fn.items():
    a,l0,l1=arms(fn)
    o+="\n(** [%s] (binary_reader.rs:%d-%d). *)\nDefinition arm_%s (pos code : Z) : R operator :=\n  match code with\n"%(fn,l0,l1,pfx[2:])
    for c,b,l in a: o+="  | %s => %s (* %d *)\n"%(c,arm(c,b),l)
    o+='  | _ => fail_pos "unknown %s subopcode" pos\n  end.\nDefinition visit_%s (pos : Z) : R operator := let* code := read_var_u32 in arm_%s pos code.\n'%(pfx,pfx[2:],pfx[2:])
a,l0,l1=arms("visit_operator")
o+='''
(** [BinaryReader::visit_operator] (binary_reader.rs:%d-%d) with a visitor that returns the operator and whose current frame
    is [cur]; the "simd" feature is on. *)
Definition arm_main (cur : option frame_kind) (pos code : Z) : R operator :=
  match code with
'''%(l0,l1)
for c,b,l in a: o+="  | %s => %s (* %d *)\n"%(c,arm(c,b),l)
o+='''  | _ => fail_pos "illegal opcode" pos
  end.
Definition visit_operator (cur : option frame_kind) : R operator :=
  match cur with
  | None => fail_at "operators remaining after end of function body or expression" 0
  | Some _ => let* pos := get_pos in let* code := read_u8 in arm_main cur pos code
  end.
'''
w("Visit.v",o)
for n,a,v,l in ops: assert re.search(r"\(?Op_%s\b"%n,o),n
# Ops.v
o=HEAD%("crates/wasmparser/src/lib.rs and crates/wasm-encoder/src/core/code.rs","")
o+="\n(** [enum Operator] of wasmparser, made from [_for_each_operator_group] (lib.rs:69-805); lines on the right. *)\nInductive operator :=\n"
for n,a,v,l in ops: o+="| Op_%s%s (* %d *)\n"%(n,"".join(" (%s : %s)"%(x,PT[t]) for x,t in a),l)
o+=".\n\n(** [enum Instruction] of wasm-encoder (code.rs:460-1339); lines on the right. *)\nInductive instr :=\n"
for n,nd,a,l in ins: o+="| In_%s%s (* %d *)\n"%(n,"".join(" (%s : %s)"%(x,ET[t]) for x,t in a),l)
o+=".\n"
w("Ops.v",o)
# Sink.v
o=HEAD%("crates/wasm-encoder/src/core/instructions.rs and code.rs"," Ops")
o+="\n(** The methods of [InstructionSink] (instructions.rs); lines on the right. *)\n"
for n,(ps,outs,l) in sinks.items():
    o+="Definition sink_%s%s : out := %s. (* %d *)\n"%(n,"".join(" (%s : %s)"%(x,c) for x,c,_ in ps)," +++ ".join(outs),l)
o+="\n(** [Encode for Instruction] (code.rs:1341-2190); lines on the right. *)\nDefinition enc_instr (i : instr) : out :=\n  match i with\n"
for n,nd,a,l in ins:
    b,fn,av,ln,br_=encs[n]
    if nd:
        assert br_ and set(b)==set(x for x,_ in a),(n,b,a); pat=[x for x,_ in a]
    else:
        assert len(b)==len(a),(n,b,a); pat=b
    for x in av: assert x in pat,(n,x)
    assert len(av)==len(sinks[fn][0]),n
    o+="  | %s => %s (* %d *)\n"%(" ".join(["In_"+n]+pat)," ".join(["sink_"+fn]+av),ln)
o+="  end.\n"
w("Sink.v",o)
# Convert.v
re_=read("wasm-encoder/src/reencode.rs")
maps={}
for m in re.finditer(r"\(map \$arg:ident (\w+)\) => \((.*?)\);\n",re_,re.S): maps[m.group(1)]=re.sub(r"\s+"," ",m.group(2)).strip()
IDX=re.compile(r"reencoder\.(tag|function|table|type|global|memory|data|element)_index\(\$arg\)\?$")
CONV={"reencoder.block_type($arg)?":"c_block","( $arg .targets() .collect::<Result<Vec<_>, wasmparser::Error>>()? .into(), $arg.default(), )":"c_br_table",
 "reencoder.val_type($arg)?":"c_val","reencoder.val_types($arg)?":"c_vals","reencoder.heap_type($arg)?":"c_heap","reencoder.ref_type($arg)?":"c_ref",
 "reencoder.mem_arg($arg)?":"c_memarg","reencoder.ordering($arg)?":"c_ordering",
 "( $arg.handlers.into_iter() .map(|h| reencoder.handle(h)) .collect::<Result<Vec<_>, _>>()? .into() )":"c_handles"}
def conv(arg):
    e=maps[arg]
    if e=="$arg" or IDX.match(e): return None
    return CONV[e]
builds=dict(re.findall(r"\(build (\w+) \$\w+:ident\) => \(Instruction::\w+\((.*?)\)\);\n",re_))
assert builds=={"BrTable":"$arg.0, $arg.1","TypedSelectMulti":"Cow::from($arg)","I32Const":"$arg","I64Const":"$arg","F32Const":"$arg.into()","F64Const":"$arg.into()","V128Const":"$arg.i128()"},builds
assert "(build TryTable $table:ident) => (Instruction::TryTable(reencoder.block_type($table.ty)?, {" in re_
assert "(build $op:ident $arg:ident) => (Instruction::$op($arg));" in re_ and "(build $op:ident $($arg:ident)*) => (Instruction::$op { $($arg),* });" in re_
o=HEAD%("crates/wasm-encoder/src/reencode.rs"," Ops")
o+='''
(** [utils::instruction] (reencode.rs:1679-1780), with the default methods of [Reencode]: indices are unchanged.
    [None] is an error or a panic. *)
Definition c_op (o : operator) : option instr :=
  match o with
'''
for n,a,v,l in ops:
    nd,ea,_=ins_by[n]
    lhs=" ".join(["Op_"+n]+[x for x,_ in a])
    cs=[]
    for x,t in a:
        c=conv(x)
        if n=="V128Const": c="c_v128"
        if n=="TryTable": c="c_try_table"
        cs.append((x,c))
    if n in("BrTable","TryTable"):
        rhs="match %s %s with Some (a, b) => Some (In_%s a b) | None => None end"%(cs[0][1],cs[0][0],n)
    else:
        if len(a)<=1:
            assert not nd and len(ea)==len(a),n; fin=[x for x,_ in a]
        else:
            assert nd and set(x for x,_ in ea)==set(x for x,_ in a),(n,ea,a); fin=[x for x,_ in ea]
        rhs="Some "+("(In_%s %s)"%(n," ".join(fin)) if fin else "In_"+n)
        for x,c in reversed(cs):
            if c: rhs="match %s %s with Some %s => %s | None => None end"%(c,x,x,rhs)
    o+="  | %s => %s\n"%(lhs,rhs)
o+="  end.\n"
w("Convert.v",o)
# Imms.v
K={"u32":"IU32","i32":"II32","i64":"II64","Lane":"ILane","Ieee32":"IF32","Ieee64":"IF64","i128":"IV128","[Lane; 16]":"ILanes","BlockType":"IBlock",
   "MemArg":"IMem","HeapType":"IHeap","RefType":"IRef","ValType":"IVal","Cow<'a, [ValType]>":"ISelect","Ordering":"IOrd","Cow<'a, [u32]>":"IBr",
   "Cow<'a, [Catch]>":"ICatches","Cow<'a, [Handle]>":"IHandlers"}
o=HEAD%("crates/wasm-encoder/src/core/code.rs"," ImmSpec Ops")
o+='''
(** The immediates of each instruction, by the types of its fields; the exceptions are the table of [call_indirect], the memory
    of [memory.size] and [memory.grow], and the legacy exception instructions. *)
Definition imms (i : instr) : list imm :=
  match i with
'''
for n,nd,a,l in ins:
    r=[]
    if n in("Try","Catch","CatchAll"): r.append("ILegacy")
    for x,t in a:
        k=K[t]
        if n=="CallIndirect" and x=="table_index": k="ICallTable"
        if n in("MemorySize","MemoryGrow"): k="IMemIdx"
        r.append("%s %s"%(k,x))
    o+="  | %s => [%s]\n"%(" ".join(["In_"+n]+[x for x,_ in a]),"; ".join(r))
o+="  end.\n"
o+='''
(** An instruction the reader is expected to accept where the innermost open block is of kind [cur]. *)
Definition instr_ok (ft : features) (i : instr) : Prop := imms_ok ft (imms i).
Definition frame_ok (cur : frame_kind) (i : instr) : Prop :=
  match i with
  | In_Else => cur = FIf
  | In_Catch _ | In_CatchAll => cur = FLegacyTry \\/ cur = FLegacyCatch
  | In_Delegate _ => cur = FLegacyTry
  | _ => True
  end.
'''
w("Imms.v",o)
# Den.v
D={"IBlock":"d_block","IHeap":"d_heap","IRef":"d_ref","IVal":"d_val","ISelect":"map d_val","IV128":"d_v128"}
o=HEAD%("the tables of both crates"," ImmSpec ImmProofs Ops")
o=o.replace("EntityModel.","EntityModel CodecProofs.")
o+="\n(** The parsed form of an instruction that is written (a tool of the proofs). *)\nDefinition den (i : instr) : operator :=\n  match i with\n"
for n,nd,a,l in ins:
    oa=op_by_name[n][0]
    def d(x,t):
        k=K[t]
        if k=="IMem": return "(d_memarg %s %s)"%(maxal[n],x)
        return "(%s %s)"%(D[k],x) if k in D else x
    if n=="BrTable": rhs="Op_BrTable (d_br a0 a1)"
    elif n=="TryTable": rhs="Op_TryTable (d_try a0 a1)"
    elif len(a)==1: rhs="Op_%s %s"%(n,d(*a[0]))
    else:
        m=dict(a); rhs=" ".join(["Op_"+n]+[d(x,m[x]) for x,_ in oa])
    o+="  | %s => %s\n"%(" ".join(["In_"+n]+[x for x,_ in a]),rhs)
o+="  end.\n"
w("Den.v",o)
print(len(ops),"operators",len(sinks),"sinks",len(maxal),"memargs")
