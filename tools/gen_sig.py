#!/usr/bin/env python3
"""Writes rocq/theories/Validator/Sig.v: the types of the scalar, vector and memory-access instructions by the
naming rules of the WebAssembly specification (t.unop, t.binop, t.testop, t.relop, t2.cvtop_t1, t.load, ...).
Only the names of the operators are taken from the code; nothing is taken from the validator."""
import re,os
root=os.path.dirname(os.path.dirname(os.path.abspath(__file__)))
s=open(root+'/rocq/theories/Instr/Ops.v').read()
ops={}
for n,a in re.findall(r'^\| (Op_\w+)([^\n]*)',s,re.M):
    if n not in ops: ops[n]=re.findall(r'\((\w+) : ([^)]*)\)',a)
V={'I32':'VI32','I64':'VI64','F32':'VF32','F64':'VF64'}
num={}; mem={}; lane={}
def add(n,ins,outs): num.setdefault((tuple(ins),tuple(outs)),[]).append(n)
for n,args in ops.items():
    x=n[3:]
    m=re.match(r'(I32|I64|F32|F64)([A-Z].*)$',x)
    if m:
        T=V[m.group(1)]; o=m.group(2)
        I=m.group(1)[0]=='I'
        if o=='Const': add(n,[],[T]); continue
        if o=='Eqz': add(n,[T],['VI32']); continue
        if re.fullmatch(r'(Eq|Ne|Lt|Gt|Le|Ge)[SU]?',o): add(n,[T,T],['VI32']); continue
        if re.fullmatch(r'Clz|Ctz|Popcnt|Extend(8|16|32)S|Abs|Neg|Ceil|Floor|Trunc|Nearest|Sqrt',o): add(n,[T],[T]); continue
        if re.fullmatch(r'Add|Sub|Mul|Div[SU]?|Rem[SU]|And|Or|Xor|Shl|Shr[SU]|Rotl|Rotr|Min|Max|Copysign',o): add(n,[T,T],[T]); continue
        c=re.fullmatch(r'(?:Wrap|Extend|Trunc|TruncSat|Convert|Demote|Promote|Reinterpret)(I32|I64|F32|F64)[SU]?',o)
        if c: add(n,[V[c.group(1)]],[T]); continue
        if re.fullmatch(r'(Add|Sub)128',o): add(n,[T]*4,[T]*2); continue
        if re.fullmatch(r'MulWide[SU]',o): add(n,[T]*2,[T]*2); continue
        if re.fullmatch(r'Load(8|16|32)?[SU]?',o): mem[n]=('false',None,'[a]','[%s]'%T); continue
        if re.fullmatch(r'Store(8|16|32)?',o): mem[n]=('false',None,'[a; %s]'%T,'[]'); continue
        if re.fullmatch(r'AtomicLoad(8U|16U|32U)?',o): mem[n]=('true',None,'[a]','[%s]'%T); continue
        if re.fullmatch(r'AtomicStore(8|16|32)?',o): mem[n]=('true',None,'[a; %s]'%T,'[]'); continue
        if re.fullmatch(r'AtomicRmw(8|16|32)?(Add|Sub|And|Or|Xor|Xchg)U?',o): mem[n]=('true',None,'[a; %s]'%T,'[%s]'%T); continue
        if re.fullmatch(r'AtomicRmw(8|16|32)?CmpxchgU?',o): mem[n]=('true',None,'[a; %s; %s]'%(T,T),'[%s]'%T); continue
        raise SystemExit('scalar '+n)
    m=re.match(r'(I8x16|I16x8|I32x4|I64x2|F32x4|F64x2)([A-Z].*)$',x)
    L={'I8x16':('VI32',16),'I16x8':('VI32',8),'I32x4':('VI32',4),'I64x2':('VI64',2),'F32x4':('VF32',4),'F64x2':('VF64',2)}
    if m:
        t,lanes=L[m.group(1)]; o=m.group(2); v='VV128'
        if o=='Shuffle': continue                                              # by hand
        if re.fullmatch(r'ExtractLane[SU]?',o): lane.setdefault((lanes,v,t),[]).append(n); continue
        if o=='ReplaceLane': lane.setdefault((lanes,'%s; %s'%(v,t),v),[]).append(n); continue
        if o=='Splat': add(n,[t],[v]); continue
        if o in('AllTrue','Bitmask'): add(n,[v],['VI32']); continue
        if re.fullmatch(r'Shl|Shr[SU]',o): add(n,[v,'VI32'],[v]); continue
        if re.fullmatch(r'RelaxedN?[Mm]add|RelaxedLaneselect|RelaxedDotI8x16I7x16AddS',o): add(n,[v]*3,[v]); continue
        if re.fullmatch(r'Abs|Neg|Sqrt|Ceil|Floor|Trunc|Nearest|Popcnt|Extend(Low|High)\w+|ExtAddPairwise\w+|Convert\w+|(Relaxed)?Trunc(Sat)?F\w+|Demote\w+|Promote\w+',o): add(n,[v],[v]); continue
        if re.fullmatch(r'(Eq|Ne|Lt|Gt|Le|Ge)[SU]?|(Add|Sub)(Sat[SU])?|Mul|Div|Min[SU]?|Max[SU]?|PMin|PMax|Avgr?U|AvgrU|Q15MulrSatS|Narrow\w+|ExtMul\w+|DotI16x8S|Swizzle|RelaxedSwizzle|RelaxedMin|RelaxedMax|RelaxedQ15mulrS|RelaxedDotI8x16I7x16S',o): add(n,[v]*2,[v]); continue
        raise SystemExit('vector '+n)
    m=re.match(r'V128(.*)$',x)
    if m:
        o=m.group(1); v='VV128'
        if o=='Const': add(n,[],[v])
        elif o=='Not': add(n,[v],[v])
        elif o in('And','AndNot','Or','Xor'): add(n,[v]*2,[v])
        elif o=='Bitselect': add(n,[v]*3,[v])
        elif o=='AnyTrue': add(n,[v],['VI32'])
        elif re.fullmatch(r'Load(8x8[SU]|16x4[SU]|32x2[SU]|(8|16|32|64)Splat|(32|64)Zero)?',o): mem[n]=('false',None,'[a]','[%s]'%v)
        elif o=='Store': mem[n]=('false',None,'[a; %s]'%v,'[]')
        elif re.fullmatch(r'Load(8|16|32|64)Lane',o): mem[n]=('false',128//int(re.findall(r'\d+',o)[0]),'[a; %s]'%v,'[%s]'%v)
        elif re.fullmatch(r'Store(8|16|32|64)Lane',o): mem[n]=('false',128//int(re.findall(r'\d+',o)[0]),'[a; %s]'%v,'[]')
        else: raise SystemExit('v128 '+n)
        continue
def pat(n): return n+' _'*len(ops[n])
out='''(** GENERATED by tools/gen_sig.py: types of the scalar, vector and memory-access instructions by the naming rules of the
    WebAssembly specification ([t.binop], [t2.cvtop_t1], [t.load], ...); a specification, nothing is taken from the validator. *)
From Verif.Base Require Import Prelude.
From Verif.Types Require Import RefModel CodecModel CanonModel.
From Verif.Instr Require Import ImmModel Ops.
From Verif.Validator Require Import State.

(** Instructions whose type depends on nothing: operands (last on top) and results. *)
Definition num_sig (o : operator) : option (list val * list val) :=
  match o with
'''
for (i,o),ns in num.items():
    rows=[ns[k:k+8] for k in range(0,len(ns),8)]
    out+='  | '+'\n  | '.join(' | '.join(pat(n) for n in r) for r in rows)+'\n    => Some ([%s], [%s])\n'%('; '.join(i),'; '.join(o))
out+='  | _ => None\n  end.\n\n'
out+='''(** Accesses to a lane of a vector: whether the lane exists, operands and results. *)
Definition lane_sig (o : operator) : option (bool * list val * list val) :=
  match o with
'''
for (k,i,o),ns in lane.items():
    out+='  | '+' | '.join(n+' l' for n in ns)+' => Some (l <? %d, [%s], [%s])\n'%(k,i,o)
out+='  | _ => None\n  end.\n\n'
out+='''(** Memory accesses: the immediate, whether the alignment must be the natural one, whether the lane if any exists, and the type
    for the address type [a]. *)
Definition mem_sig (o : operator) : option (p_memarg * bool * bool * (val -> list val * list val)) :=
  match o with
'''
g={}
for n,(at,lane,i,o) in mem.items(): g.setdefault((at,lane,i,o),[]).append(n)
for (at,lane,i,o),ns in g.items():
    p=lambda n: n+(' m' if lane is None else ' m l')
    rows=[ns[k:k+6] for k in range(0,len(ns),6)]
    out+='  | '+'\n  | '.join(' | '.join(p(n) for n in r) for r in rows)+'\n    => Some (m, %s, %s, fun a => (%s, %s))\n'%(at,'true' if lane is None else 'l <? %d'%lane,i,o)
out+='  | _ => None\n  end.\n'
open(root+'/rocq/theories/Validator/Sig.v','w').write(out)
print(sum(map(len,num.values())),len(mem))
