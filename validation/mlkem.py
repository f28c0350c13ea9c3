# ML-KEM written from FIPS 203 (not from the C code), to validate the specification by the repository's SHA256SUMS.
import hashlib,sys
q=3329;n=256
def bitrev7(i): return int('{:07b}'.format(i)[::-1],2)
Z=[pow(17,bitrev7(i),q) for i in range(128)]
G2=[pow(17,2*bitrev7(i)+1,q) for i in range(128)]
def ntt(f):
    f=f[:];i=1;l=128
    while l>=2:
        for s in range(0,256,2*l):
            z=Z[i];i+=1
            for j in range(s,s+l):
                t=z*f[j+l]%q; a=f[j]; f[j+l]=(a-t)%q; f[j]=(a+t)%q
        l//=2
    return f
def intt(f):
    f=f[:];i=127;l=2
    while l<=128:
        for s in range(0,256,2*l):
            z=Z[i];i-=1
            for j in range(s,s+l):
                t=f[j]; u=f[j+l]; f[j]=(t+u)%q; f[j+l]=z*(u-t)%q
        l*=2
    return [x*3303%q for x in f]
def mul(f,g):
    h=[0]*256
    for i in range(128):
        a0,a1,b0,b1=f[2*i],f[2*i+1],g[2*i],g[2*i+1]
        h[2*i]=(a0*b0+a1*b1*G2[i])%q; h[2*i+1]=(a0*b1+a1*b0)%q
    return h
def add(f,g): return [(a+b)%q for a,b in zip(f,g)]
def sub(f,g): return [(a-b)%q for a,b in zip(f,g)]
def sampleNTT(B):
    L=168*3
    while True:
        C=hashlib.shake_128(B).digest(L); a=[];p=0
        while p+3<=L and len(a)<256:
            d1=C[p]+256*(C[p+1]%16); d2=C[p+1]//16+16*C[p+2]; p+=3
            if d1<q: a.append(d1)
            if d2<q and len(a)<256: a.append(d2)
        if len(a)==256: return a
        L+=168
def cbd(B,eta):
    v=int.from_bytes(B,'little'); f=[]
    for i in range(256):
        x=bin((v>>(2*i*eta))&((1<<eta)-1)).count('1'); y=bin((v>>(2*i*eta+eta))&((1<<eta)-1)).count('1')
        f.append((x-y)%q)
    return f
def prf(eta,s,b): return hashlib.shake_256(s+bytes([b])).digest(64*eta)
def enc(d,F):
    v=0
    for i,x in enumerate(F): v|=x<<(d*i)
    return v.to_bytes(32*d,'little')
def dec(d,B):
    v=int.from_bytes(B,'little'); m=(1<<d)-1
    r=[(v>>(d*i))&m for i in range(256)]
    return [x%q for x in r] if d==12 else r
def comp(d,f): return [((x<<(d+1))+q)//(2*q)%(1<<d) for x in f]
def decomp(d,f): return [(2*q*x+(1<<d))//(1<<(d+1)) for x in f]
P={2:(3,2,10,4),3:(2,2,10,4),4:(2,2,11,5)}
def Gh(x): h=hashlib.sha3_512(x).digest(); return h[:32],h[32:]
def Hh(x): return hashlib.sha3_256(x).digest()
def Jh(x): return hashlib.shake_256(x).digest(32)
def keygen(k,d,z):
    e1,e2,du,dv=P[k]
    rho,sg=Gh(d+bytes([k]))
    A=[[sampleNTT(rho+bytes([j,i])) for j in range(k)] for i in range(k)]
    s=[ntt(cbd(prf(e1,sg,i),e1)) for i in range(k)]
    e=[ntt(cbd(prf(e1,sg,k+i),e1)) for i in range(k)]
    t=[]
    for i in range(k):
        a=e[i]
        for j in range(k): a=add(a,mul(A[i][j],s[j]))
        t.append(a)
    ek=b''.join(enc(12,x) for x in t)+rho
    dk=b''.join(enc(12,x) for x in s)
    return ek,dk+ek+Hh(ek)+z
def pke_enc(k,ek,m,r):
    e1_,e2_,du,dv=P[k]
    t=[dec(12,ek[384*i:384*i+384]) for i in range(k)]; rho=ek[384*k:]
    A=[[sampleNTT(rho+bytes([j,i])) for j in range(k)] for i in range(k)]
    y=[ntt(cbd(prf(e1_,r,i),e1_)) for i in range(k)]
    e1=[cbd(prf(e2_,r,k+i),e2_) for i in range(k)]
    e2=cbd(prf(e2_,r,2*k),e2_)
    c=b''
    for i in range(k):
        a=[0]*256
        for j in range(k): a=add(a,mul(A[j][i],y[j]))
        c+=enc(du,comp(du,add(intt(a),e1[i])))
    a=[0]*256
    for j in range(k): a=add(a,mul(t[j],y[j]))
    mu=decomp(1,dec(1,m))
    return c+enc(dv,comp(dv,add(add(intt(a),e2),mu)))
def pke_dec(k,dk,c):
    _,_,du,dv=P[k]
    u=[decomp(du,dec(du,c[32*du*i:32*du*(i+1)])) for i in range(k)]
    v=decomp(dv,dec(dv,c[32*du*k:]))
    a=[0]*256
    for i in range(k): a=add(a,mul(dec(12,dk[384*i:384*i+384]),ntt(u[i])))
    return enc(1,comp(1,sub(v,intt(a))))
def encaps(k,ek,m):
    K,r=Gh(m+Hh(ek)); return pke_enc(k,ek,m,r),K
def decaps(k,dk,c):
    ek=dk[384*k:768*k+32]; h=dk[768*k+32:768*k+64]; z=dk[768*k+64:]
    m=pke_dec(k,dk,c); K,r=Gh(m+h)
    return K if pke_enc(k,ek,m,r)==c else Jh(z+c)
if __name__=='__main__':
    k=int(sys.argv[1]); N=int(sys.argv[2]); dump=len(sys.argv)>3
    clen=32*(P[k][2]*k+P[k][3])
    S=hashlib.shake_128(b'').digest(N*(96+clen)); p=0
    H=hashlib.sha256()
    for _ in range(N):
        co=S[p:p+64];p+=64; pk,sk=keygen(k,co[:32],co[32:])
        m=S[p:p+32];p+=32; ct,kb=encaps(k,pk,m); ka=decaps(k,sk,ct); assert ka==kb
        out='Public Key: %s\nSecret Key: %s\nCiphertext: %s\nShared Secret B: %s\nShared Secret A: %s\n'%tuple(x.hex() for x in (pk,sk,ct,kb,ka))
        ct=S[p:p+clen];p+=clen
        out+='Pseudorandom shared Secret A: %s\n'%decaps(k,sk,ct).hex()
        H.update(out.encode())
        if dump: sys.stdout.write(out)
    print(H.hexdigest())
